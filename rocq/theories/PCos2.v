(* Cosines of rational multiples of pi as intervals, by Taylor polynomials. *)
From Coq Require Import ZArith QArith Qreals Reals Lra Lia List Bool.
From Verif Require Import Res F32 MParms SpecAmp SpecBound PFloat PReal PNyq PResid PFftErr PIv PCos.
From Flocq Require Import Core.Core.
Import ListNotations.
Local Open Scope R_scope.

(* Taylor polynomials of the cosine in y = x^2, from degree 5 and 6 down *)
Definition taylor (top : Q) (y : Q) : Q :=
  let h := fun c t => Qminus 1 (Qmult (Qmult y (1 # c)) t) in h 2%positive (h 12%positive (h 30%positive (h 56%positive (h 90%positive top)))).
Lemma term_step : forall a i, cos_term a (S i) = - cos_term a i * (a * a) / (INR (2 * i + 1) * INR (2 * i + 2)).
Proof.
  intros a i. unfold cos_term. replace (2 * S i)%nat with (S (S (2 * i))) by lia. rewrite !fact_simpl, !mult_INR. replace (S (S (2 * i))) with (2 * i + 2)%nat by lia. replace (S (2 * i)) with (2 * i + 1)%nat by lia.
  assert (INR (fact (2 * i)) <> 0) by apply INR_fact_neq_0. assert (INR (2 * i + 1) <> 0) by (apply not_0_INR; lia). assert (INR (2 * i + 2) <> 0) by (apply not_0_INR; lia).
  replace (2 * i + 2)%nat with (S (S (2 * i))) at 1 by lia. cbn [pow]. field. auto.
Qed.
Lemma term_0 : forall a, cos_term a 0 = 1.
Proof. intros a. unfold cos_term. cbn. field. Qed.
Lemma taylor_R : forall t y, Q2R (taylor t y) = 1 - Q2R y / 2 * (1 - Q2R y / 12 * (1 - Q2R y / 30 * (1 - Q2R y / 56 * (1 - Q2R y / 90 * Q2R t)))).
Proof.
  intros t y. unfold taylor. cbv zeta. assert (O : Q2R 1 = 1) by (unfold Q2R; cbn; lra). repeat rewrite ?Q2R_minus, ?Q2R_mult, O.
  replace (Q2R (1 # 2)) with (/ 2) by (unfold Q2R; cbn; lra). replace (Q2R (1 # 12)) with (/ 12) by (unfold Q2R; cbn; lra). replace (Q2R (1 # 30)) with (/ 30) by (unfold Q2R; cbn; lra).
  replace (Q2R (1 # 56)) with (/ 56) by (unfold Q2R; cbn; lra). replace (Q2R (1 # 90)) with (/ 90) by (unfold Q2R; cbn; lra). field.
Qed.
Lemma cos_taylor : forall x, -2 <= Q2R x <= 2 -> Q2R (taylor 1 (x * x)) <= cos (Q2R x) <= Q2R (taylor (1 - x * x * (1 # 132)) (x * x)).
Proof.
  intros x B. destruct (pre_cos_bound (Q2R x) 2 (proj1 B) (proj2 B)) as [L U]. rewrite !taylor_R. rewrite Q2R_minus, !Q2R_mult.
  assert (O : Q2R 1 = 1) by (unfold Q2R; cbn; lra). replace (Q2R (1 # 132)) with (/ 132) by (unfold Q2R; cbn; lra). rewrite O.
  set (a := Q2R x) in *. unfold cos_approx in L, U. change (2 * 2 + 1)%nat with 5%nat in L. change (2 * (2 + 1))%nat with 6%nat in U. cbn [sum_f_R0] in L, U.
  rewrite !(term_step a), term_0 in L. rewrite !(term_step a), term_0 in U.
  rewrite !INR_IZR_INZ in L. rewrite !INR_IZR_INZ in U. cbn [Nat.mul Nat.add Z.of_nat Pos.of_succ_nat Pos.succ] in L, U. clearbody a. split; [eapply Rle_trans; [|exact L]|eapply Rle_trans; [exact U|]]; apply Req_le; field.
Qed.
(* cos (pi m / N) in units of 1e-5 *)
Definition base2 (N m : Z) : Z := nth (Z.to_nat m)
  (if (N =? 16)%Z then [100000; 98079; 92388; 83147; 70711; 55557; 38268; 19509; 0]
   else if (N =? 18)%Z then [100000; 98481; 93969; 86603; 76604; 64279; 50000; 34202; 17365; 0]
   else if (N =? 24)%Z then [100000; 99144; 96593; 92388; 86603; 79335; 70711; 60876; 50000; 38268; 25882; 13053; 0]
   else [100000; 99271; 97094; 93502; 88546; 82298; 74851; 66312; 56806; 46472; 35460; 23932; 12054; 0])%Z 0%Z.
Definition ctab2 (N m : Z) : Z :=
  let r := (m mod (2 * N))%Z in let s := if (N <? r)%Z then (2 * N - r)%Z else r in if (N / 2 <? s)%Z then (- base2 N (N - s))%Z else base2 N s.
Definition angle_q (p : Z) (N m : Z) : Q := Qmake (p * m) (Z.to_pos (100000000 * N)).
Definition cos_ok (N m : Z) : bool :=
  let lo := angle_q 314159265 N m in let hi := angle_q 314159266 N m in
  Qle_bool (Qmake (base2 N m - 1) 100000) (taylor 1 (hi * hi)) && Qle_bool (taylor (1 - lo * lo * (1 # 132)) (lo * lo)) (Qmake (base2 N m + 1) 100000).
Lemma cos_all : forallb (fun N => forallb (fun m => cos_ok N m) (0 :: upto (N / 2))%Z) [16; 18; 24; 26]%Z = true.
Proof. vm_compute. reflexivity. Qed.
Lemma ctab2_near : forall N m, In N [16; 18; 24; 26]%Z -> (0 <= m)%Z -> Rabs (cos (PI * IZR m / IZR N) - IZR (ctab2 N m) / 100000) <= / 100000.
Proof.
  intros N m HN Hm. assert (NB : (16 <= N <= 26 /\ N = 2 * (N / 2))%Z) by (destruct HN as [<-|[<-|[<-|[<-|[]]]]]; split; (lia || reflexivity)). destruct NB as [NB NE]. assert (NR : 0 < IZR N) by (apply IZR_lt; lia).
  assert (BA : forall s, (0 <= s <= N / 2)%Z -> Rabs (cos (PI * IZR s / IZR N) - IZR (base2 N s) / 100000) <= / 100000).
  { intros s Hs. pose proof cos_all as G. rewrite forallb_forall in G. specialize (G N HN). rewrite forallb_forall in G. assert (I : In s (0 :: upto (N / 2))%Z) by (destruct (Z.eq_dec s 0) as [->|E]; [left; reflexivity|right; apply upto_in; lia]).
    specialize (G s I). unfold cos_ok in G. cbv zeta in G. apply andb_true_iff in G as [G1 G2]. apply Qle_bool_iff, Qle_Rle in G1, G2.
    set (lo := angle_q 314159265 N s) in *. set (hi := angle_q 314159266 N s) in *. set (a := PI * IZR s / IZR N). assert (S0 : 0 <= IZR s) by (apply IZR_le; lia). assert (S1 : IZR s * 2 <= IZR N) by (rewrite <- mult_IZR; apply IZR_le; lia).
    assert (QV : forall p, Q2R (angle_q p N s) = IZR p / 100000000 * (IZR s / IZR N)). { intros p. unfold angle_q, Q2R. cbn [Qnum Qden]. rewrite Z2Pos.id by lia. rewrite !mult_IZR. field. lra. }
    assert (F : 0 <= IZR s / IZR N <= / 2) by (split; apply (Rmult_le_reg_r (IZR N)); auto; unfold Rdiv; rewrite ?Rmult_assoc, ?Rinv_l by lra; lra). set (f := IZR s / IZR N) in *.
    pose proof PI_bounds as PB. assert (LV : Q2R lo = 3.14159265 * f) by (unfold lo; rewrite QV; lra). assert (HV : Q2R hi = 3.14159266 * f) by (unfold hi; rewrite QV; lra).
    assert (AV : a = PI * f) by (unfold a, f; field; lra). assert (A1 : 3.14159265 * f <= a <= 3.14159266 * f) by (rewrite AV; split; apply Rmult_le_compat_r; lra).
    assert (B1 : -2 <= Q2R lo <= 2) by (rewrite LV; lra). assert (B2 : -2 <= Q2R hi <= 2) by (rewrite HV; lra).
    pose proof (proj2 (cos_taylor lo B1)) as CL. pose proof (proj1 (cos_taylor hi B2)) as CH.
    assert (D1 : cos a <= cos (Q2R lo)) by (apply cos_decr_1; lra). assert (D2 : cos (Q2R hi) <= cos a) by (apply cos_decr_1; lra).
    assert (V1 : Q2R ((base2 N s - 1) # 100000) = (IZR (base2 N s) - 1) / 100000) by (unfold Q2R; cbn [Qnum Qden]; rewrite minus_IZR; lra).
    assert (V2 : Q2R ((base2 N s + 1) # 100000) = (IZR (base2 N s) + 1) / 100000) by (unfold Q2R; cbn [Qnum Qden]; rewrite plus_IZR; lra).
    rewrite V1 in G1. rewrite V2 in G2. apply Rabs_le. lra. }
  assert (H2 : (N - N / 2 <= N / 2)%Z) by lia.
  pose proof (Z.div_mod m (2 * N) ltac:(lia)) as E. pose proof (Z.mod_pos_bound m (2 * N) ltac:(lia)) as B. pose proof (Z.div_pos m (2 * N) Hm ltac:(lia)) as Q.
  unfold ctab2. cbv zeta. set (r := (m mod (2 * N))%Z) in *. set (q := (m / (2 * N))%Z) in *.
  assert (E1 : cos (PI * IZR m / IZR N) = cos (PI * IZR r / IZR N)).
  { rewrite <- (cos_period (PI * IZR r / IZR N) (Z.to_nat q)). f_equal. rewrite E, plus_IZR, !mult_IZR, INR_IZR_INZ, Z2Nat.id by exact Q. field. lra. }
  assert (E2 : cos (PI * IZR r / IZR N) = cos (PI * IZR (if (N <? r)%Z then 2 * N - r else r) / IZR N)).
  { destruct (N <? r)%Z; [|reflexivity]. rewrite minus_IZR, mult_IZR. replace (PI * (2 * IZR N - IZR r) / IZR N) with (- (PI * IZR r / IZR N) + 2 * INR 1 * PI) by (cbn; field; lra).
    rewrite cos_period, cos_neg. reflexivity. }
  rewrite E1, E2. set (s := if (N <? r)%Z then (2 * N - r)%Z else r). assert (S : (0 <= s <= N)%Z) by (unfold s; destruct (Z.ltb_spec N r); lia).
  destruct (Z.ltb_spec (N / 2) s) as [G|G].
  - specialize (BA (N - s)%Z ltac:(lia)). replace (PI * IZR (N - s) / IZR N) with (- (PI * IZR s / IZR N) + PI) in BA by (rewrite minus_IZR; field; lra).
    rewrite neg_cos, cos_neg in BA. rewrite opp_IZR. apply Rabs_le_inv in BA. apply Rabs_le. lra.
  - apply BA. lia.
Qed.

(* the angles of the transforms of 8, 9, 12 and 13 points: all of 8, the first six of the others *)
Definition sizes : list Z := [8; 9; 12; 13]%Z.
Definition width (n : Z) : Z := if (n =? 8)%Z then 8 else 6.
Lemma angles2_fine : forallb (fun n => forallb (fun k => forallb (fun j => angle_fine n k j) (upto n)) (upto (width n))) sizes = true.
Proof. vm_compute. reflexivity. Qed.
Lemma angle2_near : forall n k j, In n sizes -> (1 <= k <= width n)%Z -> (1 <= j <= n)%Z ->
  ff (dct_angle n k j) /\ Rabs (R_of (dct_angle n k j) - PI * IZR (odd_part k j) / IZR (2 * n)) <= / 100000.
Proof.
  intros n k j Hn Hk Hj. pose proof angles2_fine as F. rewrite forallb_forall in F. specialize (F n Hn). rewrite forallb_forall in F. specialize (F k (upto_in _ _ Hk)).
  rewrite forallb_forall in F. specialize (F j (upto_in _ _ Hj)). assert (N : (8 <= n <= 13)%Z) by (destruct Hn as [<-|[<-|[<-|[<-|[]]]]]; lia).
  assert (M : (0 <= odd_part k j)%Z) by (unfold odd_part; apply Z.mul_nonneg_nonneg; lia).
  unfold angle_fine in F. pose proof (exactly_in (dct_angle n k j)) as I. destruct (exactly (dct_angle n k j)) as [[a b]|]; [|discriminate]. destruct I as [FF I]. split; [exact FF|].
  apply andb_true_iff in F as [F1 F2]. apply Z.leb_le in F1, F2. change (2 ^ 30)%Z with 1073741824%Z in F1, F2. apply IZR_le in M.
  set (m := odd_part k j) in *. assert (NR : 16 <= IZR (2 * n) <= 26) by (split; apply IZR_le; lia). set (x := R_of (dct_angle n k j)) in *.
  set (p := (2 * n)%Z) in *. rename F1 into G1. rename F2 into G2.
  apply IZR_le in G1, G2. rewrite !mult_IZR, minus_IZR, !mult_IZR in G1. rewrite !mult_IZR, plus_IZR, !mult_IZR in G2.
  assert (X : (IZR a * IZR p <= x * 1073741824 * IZR p /\ x * 1073741824 * IZR p <= IZR b * IZR p)) by (unfold unit30 in I; split; apply Rmult_le_compat_r; lra).
  pose proof PI_bounds as PB. assert (Y : 314159265 / 100000000 * IZR m <= PI * IZR m <= 314159266 / 100000000 * IZR m) by (split; apply Rmult_le_compat_r; lra).
  apply Rabs_le. split; apply (Rmult_le_reg_r (IZR p)); try lra; unfold Rminus; rewrite Rmult_plus_distr_r; replace (- (PI * IZR m / IZR p) * IZR p) with (- (PI * IZR m)) by (field; lra); lra.
Qed.

(* the cosines *)
Definition ci2 (n k j : Z) : iv :=
  if (width n <? k)%Z then Some (- 2 ^ 30, 2 ^ 30)%Z
  else let c := ctab2 (2 * n) (odd_part k j) in Some (c * 2 ^ 30 / 100000 - 33000, c * 2 ^ 30 / 100000 + 33001)%Z.
Lemma ci2_in : forall o n k j, cosine_in_unit o -> (forall x, ff x -> Rabs (R_of x) <= 32 -> Rabs (R_of (cosf o x) - cos (R_of x)) <= / 1048576) ->
  In n sizes -> (1 <= k <= n)%Z -> (1 <= j <= n)%Z -> inside (dct_cosine o n k j) (ci2 n k j).
Proof.
  intros o n k j CU CC Hn Hk Hj. assert (N : (8 <= n <= 13)%Z) by (destruct Hn as [<-|[<-|[<-|[<-|[]]]]]; lia). pose proof (angle_ff n k j ltac:(lia) ltac:(lia) ltac:(lia)) as FA.
  change (dct_cosine o n k j) with (cosf o (dct_angle n k j)). destruct (CU (dct_angle n k j) FA) as [FC UC]. unfold ci2. destruct (Z.ltb_spec (width n) k) as [S|S].
  - cbn [inside]. split; [exact FC|]. apply Rabs_le_inv in UC. change (- 2 ^ 30)%Z with (-1073741824)%Z. change (2 ^ 30)%Z with 1073741824%Z. unfold unit30. lra.
  - destruct (angle2_near n k j Hn ltac:(lia) Hj) as [_ AN].
    assert (Q2 : (0 <= odd_part k j /\ odd_part k j * 16 <= 105 * (2 * n))%Z).
    { unfold odd_part. split; [apply Z.mul_nonneg_nonneg; lia|]. destruct Hn as [<-|[<-|[<-|[<-|[]]]]]; cbn [width Z.eqb Pos.eqb] in S; nia. }
    destruct Q2 as [Q1 Q2]. assert (MR : 0 <= IZR (odd_part k j)) by (apply IZR_le; lia). assert (NR : 16 <= IZR (2 * n) <= 26) by (split; apply IZR_le; lia).
    set (r := PI * IZR (odd_part k j) / IZR (2 * n)) in *. pose proof PI_bounds as PB. apply IZR_le in Q2. rewrite (mult_IZR (odd_part k j)), (mult_IZR 105) in Q2.
    assert (RB : 0 <= r <= 21).
    { unfold r. assert (0 <= PI * IZR (odd_part k j) <= 3.1416 * IZR (odd_part k j)) by (split; [apply Rmult_le_pos; lra|apply Rmult_le_compat_r; lra]).
      split; apply (Rmult_le_reg_r (IZR (2 * n))); try lra; replace (PI * IZR (odd_part k j) / IZR (2 * n) * IZR (2 * n)) with (PI * IZR (odd_part k j)) by (field; lra); lra. }
    assert (C1 : Rabs (R_of (cosf o (dct_angle n k j)) - cos r) <= / 1048576 + / 100000).
    { assert (SA : Rabs (R_of (dct_angle n k j)) <= 32) by (apply Rabs_le_inv in AN; apply Rabs_le; lra).
      specialize (CC _ FA SA). pose proof (cos_lip (R_of (dct_angle n k j)) r) as L.
      replace (R_of (cosf o (dct_angle n k j)) - cos r) with ((R_of (cosf o (dct_angle n k j)) - cos (R_of (dct_angle n k j))) + (cos (R_of (dct_angle n k j)) - cos r)) by ring.
      eapply Rle_trans; [apply Rabs_triang|]. lra. }
    cbv zeta. set (c := ctab2 (2 * n) (odd_part k j)).
    assert (C2 : Rabs (cos r - IZR c / 100000) <= / 100000).
    { unfold c, r. apply ctab2_near; [|exact Q1]. destruct Hn as [<-|[<-|[<-|[<-|[]]]]]; cbn; auto. }
    cbn [inside]. split; [exact FC|]. apply Rabs_le_inv in C1, C2.
    pose proof (Z.div_mod (c * 2 ^ 30) 100000 ltac:(lia)) as D1. pose proof (Z.mod_pos_bound (c * 2 ^ 30) 100000 ltac:(lia)) as D2. set (q := (c * 2 ^ 30 / 100000)%Z) in *.
    assert (D3 : (100000 * q <= c * 1073741824)%Z) by (change 1073741824%Z with (2 ^ 30)%Z; lia). assert (D4 : (c * 1073741824 <= 100000 * (q + 1))%Z) by (change 1073741824%Z with (2 ^ 30)%Z; lia).
    apply IZR_le in D3, D4. rewrite !mult_IZR in D3, D4. rewrite plus_IZR in D4. rewrite minus_IZR, plus_IZR. unfold unit30. lra.
Qed.
