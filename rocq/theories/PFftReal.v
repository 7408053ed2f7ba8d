(* The four steps of the FFT in exact arithmetic. *)
From Coq Require Import ZArith List Bool Reals Lia Lra.
From Verif Require Import Res F32 MFft SpecFft PFftSym PFftRun PCpx.
Import ListNotations.
Local Open Scope Z_scope.

(* the spectrum held by m cells in half-complex order *)
Definition spec (m : Z) (h : Z -> R) (q : Z) : C :=
  if q =? 0 then (h 0, 0%R) else if 2 * q <? m then (h (2 * q - 1), h (2 * q)) else if 2 * q =? m then (h (m - 1), 0%R)
  else (h (2 * (m - q) - 1), Ropp (h (2 * (m - q)))).
Definition block (c : Z -> R) (m b : Z) (i : Z) : R := c (m * b + i).
Lemma cmul_comm : forall a b, (a * b)%C = (b * a)%C. Proof. intros. ring. Qed.
Lemma spec_0 : forall m h, spec m h 0 = (h 0, 0%R). Proof. reflexivity. Qed.
Lemma spec_low : forall m h q, 0 < q -> 2 * q < m -> spec m h q = (h (2 * q - 1), h (2 * q)).
Proof. intros m h q A B. unfold spec. rewrite (proj2 (Z.eqb_neq q 0)) by lia. now rewrite (proj2 (Z.ltb_lt _ _) B). Qed.
Lemma spec_mid : forall m h q, 0 < q -> 2 * q = m -> spec m h q = (h (m - 1), 0%R).
Proof. intros m h q A B. unfold spec. rewrite (proj2 (Z.eqb_neq q 0)) by lia. rewrite (proj2 (Z.ltb_ge _ _)) by lia. now rewrite (proj2 (Z.eqb_eq _ _) B). Qed.
Lemma spec_high : forall m h q, m < 2 * q -> q < m -> spec m h q = conj (spec m h (m - q)).
Proof.
  intros m h q A B. rewrite (spec_low m h (m - q)) by lia. unfold spec, conj. rewrite (proj2 (Z.eqb_neq q 0)) by lia. rewrite (proj2 (Z.ltb_ge _ _)) by lia. rewrite (proj2 (Z.eqb_neq _ _)) by lia. reflexivity.
Qed.
Lemma spec_conj : forall m h q, 0 < q < m -> spec m h (m - q) = conj (spec m h q).
Proof.
  intros m h q H. destruct (Z_lt_le_dec (2 * q) m) as [A|A]; [rewrite (spec_high m h (m - q)) by lia; f_equal; f_equal; lia|].
  destruct (Z.eq_dec (2 * q) m) as [E|E]; [|rewrite (spec_high m h q) by lia; now rewrite conj_conj].
  rewrite !spec_mid by lia. unfold conj. cbn [fst snd]. f_equal. ring.
Qed.

Notation "^ r" := (conj r) (at level 5).
Notation ev := (eval exact).
Lemma tw_cos_R : forall c m l j q, 0 < m -> 4 * m * l = 256 -> ev c (tw_cos l j q) = fst (root (4 * m) (q * j)).
Proof.
  intros c m l j q Hm E. unfold tw_cos. cbn [eval]. unfold exact at 1 2 3 4 5 6. cbn [a_cos a_mul a_int a_argh]. unfold root, cis. cbn [fst]. f_equal. rewrite !mult_IZR.
  assert (E' : (4 * IZR m * IZR l = 256)%R) by (rewrite <- !mult_IZR; now rewrite E). assert (IZR m <> 0)%R by (apply not_0_IZR; lia). rewrite <- E'. assert (IZR l <> 0)%R by (apply not_0_IZR; lia). field. split; assumption.
Qed.
Lemma tw_sin_R : forall c m l j q, 0 < m -> 4 * m * l = 256 -> ev c (tw_sin l j q) = snd (root (4 * m) (q * j)).
Proof.
  intros c m l j q Hm E. unfold tw_sin. cbn [eval]. unfold exact at 1 2 3 4 5 6. cbn [a_sin a_mul a_int a_argh]. unfold root, cis. cbn [snd]. f_equal. rewrite !mult_IZR.
  assert (E' : (4 * IZR m * IZR l = 256)%R) by (rewrite <- !mult_IZR; now rewrite E). assert (IZR m <> 0)%R by (apply not_0_IZR; lia). rewrite <- E'. assert (IZR l <> 0)%R by (apply not_0_IZR; lia). field. split; assumption.
Qed.
Lemma mulconj_R : forall c m l j q x y, 0 < m -> 4 * m * l = 256 ->
  let z := cplxmulconj terms x y (tw_cos l j q) (tw_sin l j q) in (ev c (fst z), ev c (snd z)) = ((ev c x, ev c y) * root (4 * m) (- (q * j)))%C.
Proof.
  intros c m l j q x y Hm E. unfold cplxmulconj, terms. cbn [fst snd a_add a_sub a_mul eval]. rewrite (tw_cos_R c m), (tw_sin_R c m) by assumption. rewrite root_opp.
  unfold exact, cmul, conj. cbn [a_add a_sub a_mul fst snd]. f_equal; ring.
Qed.
Lemma mul_R : forall c m l j q x y, 0 < m -> 4 * m * l = 256 ->
  let z := cplxmul terms x y (tw_cos l j q) (tw_sin l j q) in (ev c (fst z), ev c (snd z)) = ((ev c x, ev c y) * root (4 * m) (q * j))%C.
Proof.
  intros c m l j q x y Hm E. unfold cplxmul, terms. cbn [fst snd a_add a_sub a_mul eval]. rewrite (tw_cos_R c m), (tw_sin_R c m) by assumption.
  unfold exact, cmul. cbn [a_add a_sub a_mul fst snd]. f_equal; ring.
Qed.

(* ---- forward steps ---- *)
Lemma fstep_at : forall m l c k r, 0 < m -> 0 <= r < 4 * m -> fstep exact m l c (4 * m * k + r) = ev c (fterm_at m l k r).
Proof.
  intros m l c k r Hm Hr. unfold fstep, fterm. f_equal. f_equal.
  - rewrite Z.add_comm, Z.mul_comm, Z.div_add by lia. rewrite Z.div_small by lia. lia.
  - rewrite Z.add_comm, Z.mul_comm, Z.mod_add by lia. apply Z.mod_small. lia.
Qed.
Ltac no := rewrite (proj2 (Z.eqb_neq _ _)) by lia.
Ltac yes := rewrite (proj2 (Z.eqb_eq _ _)) by lia.
(* the cells of the other bins, by quarter of the half spectrum *)
Definition twid (m l k q j : Z) : term * term :=
  cplxmulconj terms (In (m * (k + l * j) + (2 * q - 1))) (In (m * (k + l * j) + 2 * q)) (tw_cos l j q) (tw_sin l j q).
Definition plain (m l k q : Z) : term * term := (In (m * (k + l * 0) + (2 * q - 1)), In (m * (k + l * 0) + 2 * q)).
Lemma half_odd : forall f, (2 * f - 1 + 1) / 2 = f.
Proof. intros f. replace (2 * f - 1 + 1) with (f * 2) by lia. now apply Z.div_mul. Qed.
Lemma half_even : forall f, (2 * f + 1) / 2 = f.
Proof. intros f. replace (2 * f + 1) with (1 + f * 2) by lia. rewrite Z.div_add by lia. reflexivity. Qed.
Lemma odd_odd : forall f, Z.odd (2 * f - 1) = true.
Proof. intros f. replace (2 * f - 1) with (1 + 2 * (f - 1)) by lia. now rewrite Z.odd_add_mul_2. Qed.
Lemma odd_even : forall f, Z.odd (2 * f) = false.
Proof. intros f. rewrite Z.odd_mul. reflexivity. Qed.
Section Quarter.
Context (m l k q : Z) (Q : 0 < q) (M : 2 * q < m).
Let s0 := plain m l k q. Let s1 := twid m l k q 1. Let s2 := twid m l k q 2. Let s3 := twid m l k q 3.
Lemma quarter : forall f t, (t = 0 /\ f = q \/ t = 1 /\ f = m - q \/ t = 2 /\ f = m + q \/ t = 3 /\ f = 2 * m - q) -> (exists h, m = 2 * h) ->
  (2 * f) / m = t /\ (if t =? 0 then f else if t =? 1 then m - f else if t =? 2 then f - m else 2 * m - f) = q.
Proof.
  intros f t H _. destruct H as [[-> ->]|[[-> ->]|[[-> ->]|[-> ->]]]]; cbn [Z.eqb Pos.eqb]; (split; [symmetry|lia]).
  - apply Z.div_unique with (2 * q); lia.
  - apply Z.div_unique with (m - 2 * q); lia.
  - apply Z.div_unique with (2 * q); lia.
  - apply Z.div_unique with (m - 2 * q); lia.
Qed.
Lemma fterm_quarter : forall f t, (t = 0 /\ f = q \/ t = 1 /\ f = m - q \/ t = 2 /\ f = m + q \/ t = 3 /\ f = 2 * m - q) -> (exists h, m = 2 * h) ->
  fterm_at m l k (2 * f - 1) =
    (if t =? 0 then Add (Add (fst s1) (fst s3)) (Add (fst s0) (fst s2)) else if t =? 3 then Sub (Add (fst s0) (fst s2)) (Add (fst s1) (fst s3))
     else if t =? 2 then Add (Sub (snd s1) (snd s3)) (Sub (fst s0) (fst s2)) else Sub (Sub (fst s0) (fst s2)) (Sub (snd s1) (snd s3))) /\
  fterm_at m l k (2 * f) =
    (if t =? 0 then Add (Add (snd s1) (snd s3)) (Add (snd s0) (snd s2)) else if t =? 3 then Sub (Add (snd s1) (snd s3)) (Add (snd s0) (snd s2))
     else if t =? 2 then Add (Sub (fst s3) (fst s1)) (Sub (snd s0) (snd s2)) else Sub (Sub (fst s3) (fst s1)) (Sub (snd s0) (snd s2))).
Proof.
  intros f t H HE. destruct (quarter f t H HE) as [E1 E2]. destruct HE as [h HE]. assert (F : 0 < f < 2 * m /\ 2 * f <> m /\ f <> m /\ 2 * f <> 3 * m) by lia. unfold fterm_at. cbv zeta. split.
  - do 8 no. rewrite half_odd, E1, E2, odd_odd. reflexivity.
  - do 8 no. rewrite half_even, E1, E2, odd_even. reflexivity.
Qed.
End Quarter.

(* one bin of a forward step, from the four spectra it combines *)
Definition merged (m l : Z) (c : Z -> R) (k f : Z) : C :=
  let a j := (root (4 * m) (- (f * j)) * spec m (block c m (k + l * j)) (f mod m))%C in (a 0 + a 1 + a 2 + a 3)%C.
Lemma root_4m : forall m j, 0 < m -> root (4 * m) (m * j) = root 4 j.
Proof. intros m j H. rewrite (Z.mul_comm m j). apply root_scale; lia. Qed.
Lemma root_8m : forall m q j, 0 < m -> 2 * q = m -> root (4 * m) (q * j) = root 8 j.
Proof. intros m q j H E. replace (4 * m) with (8 * q) by lia. rewrite (Z.mul_comm q j). apply root_scale; lia. Qed.
Lemma fstep_spec_low : forall m l c k f, 0 < m -> (m = 1 \/ exists h, m = 2 * h) -> 4 * m * l = 256 -> 0 <= f <= 2 * m ->
  spec (4 * m) (block (fstep exact m l c) (4 * m) k) f = merged m l c k f.
Proof.
  intros m l c k f Hm HE HL Hf.
  assert (AT : forall r, 0 <= r < 4 * m -> block (fstep exact m l c) (4 * m) k r = ev c (fterm_at m l k r)) by (intros; now apply fstep_at).
  assert (IN : forall j i, ev c (In (m * (k + l * j) + i)) = block c m (k + l * j) i) by reflexivity.
  destruct (Z.eq_dec f 0) as [->|N0].
  { rewrite spec_0, AT by lia. unfold merged. rewrite Z.mod_0_l by lia. rewrite !spec_0. change (- (0 * 0)) with 0. change (- (0 * 1)) with 0. change (- (0 * 2)) with 0. change (- (0 * 3)) with 0. rewrite root_0.
    unfold fterm_at. cbv zeta. yes. cbn [eval]. unfold cadd, cmul, c1, block, exact. cbn [fst snd a_add]. f_equal; ring. }
  destruct (Z.eq_dec f (2 * m)) as [->|N2].
  { rewrite spec_mid, AT by lia. unfold merged. rewrite Z_mod_mult. rewrite !spec_0.
    replace (- (2 * m * 0)) with 0 by lia. replace (- (2 * m * 1)) with (m * -2) by lia. replace (- (2 * m * 2)) with (4 * m * -1) by lia. replace (- (2 * m * 3)) with (m * -2 + 4 * m * -1) by lia.
    rewrite root_period, root_mult, root_0, root_4m by lia. change (-2) with (- (2)). rewrite root_opp, root_4_2.
    unfold fterm_at. cbv zeta. no. yes. cbn [eval]. unfold cadd, cmul, copp, conj, c1, block, exact. cbn [fst snd a_add a_sub]. f_equal; ring. }
  destruct (Z.eq_dec f m) as [->|N1].
  { rewrite spec_low, !AT by lia. unfold merged. rewrite Z_mod_same_full. rewrite !spec_0.
    rewrite !root_opp. rewrite !root_4m by lia. rewrite root_0, root_4_1, root_4_2, root_4_3.
    unfold fterm_at. cbv zeta. do 2 no. yes. cbn [eval]. do 3 no. yes. cbn [eval]. unfold cadd, cmul, copp, conj, c1, ci, block, exact. cbn [fst snd a_add a_sub]. f_equal; ring. }
  assert (HH : exists h, m = 2 * h) by (destruct HE as [->|HE]; [lia|exact HE]). clear HE. destruct HH as [h HH].
  assert (SQ : sqrt 2 <> 0%R) by (apply Rgt_not_eq, sqrt_lt_R0; lra).
  destruct (Z.eq_dec f h) as [->|NH].
  { rewrite spec_low, !AT by lia. unfold merged. rewrite Z.mod_small by lia. rewrite !spec_mid by lia. rewrite !root_opp. rewrite !root_8m by lia. rewrite root_0. change (root 8 2) with (root (4 * 2) (1 * 2)). rewrite root_scale by lia. rewrite root_4_1.
    change (root 8 3) with (root 8 (1 + 2)). rewrite root_add. change (root 8 2) with (root (4 * 2) (1 * 2)). rewrite root_scale by lia. rewrite root_4_1, root_8_1.
    unfold fterm_at. cbv zeta. do 4 no. yes. replace (2 * h) with m by lia. do 6 no. yes. cbn [eval]. unfold cadd, cmul, copp, conj, c1, ci, block, exact. cbn [fst snd a_add a_sub a_mul a_mh]. f_equal; ring. }
  destruct (Z.eq_dec f (3 * h)) as [->|NK].
  { rewrite spec_low, !AT by lia. unfold merged. assert (MD : (3 * h) mod m = h) by (replace (3 * h) with (h + 1 * m) by lia; rewrite Z.mod_add by lia; apply Z.mod_small; lia). rewrite !MD. rewrite !spec_mid by lia. rewrite !root_opp.
    replace (3 * h * 0) with (h * 0) by lia. replace (3 * h * 1) with (h * 3) by lia. replace (3 * h * 2) with (h * 6) by lia. replace (3 * h * 3) with (h * 9) by lia. rewrite !root_8m by lia. rewrite root_0.
    change (root 8 9) with (root 8 (1 + 8 * 1)). rewrite root_period by lia. change (root 8 6) with (root (4 * 2) (3 * 2)). rewrite root_scale by lia. rewrite root_4_3.
    change (root 8 3) with (root 8 (1 + 2)). rewrite root_add. change (root 8 2) with (root (4 * 2) (1 * 2)). rewrite root_scale by lia. rewrite root_4_1, root_8_1.
    unfold fterm_at. cbv zeta. do 5 no. yes. replace (2 * (3 * h)) with (3 * m) by lia. do 7 no. yes. cbn [eval]. unfold cadd, cmul, copp, conj, c1, ci, block, exact. cbn [fst snd a_add a_sub a_mul a_mh]. f_equal; ring. }
  assert (D : exists q t, 0 < q /\ 2 * q < m /\ (t = 0 /\ f = q \/ t = 1 /\ f = m - q \/ t = 2 /\ f = m + q \/ t = 3 /\ f = 2 * m - q)).
  { destruct (Z_lt_le_dec f h); [exists f, 0; lia|]. destruct (Z_lt_le_dec f m); [exists (m - f), 1; lia|]. destruct (Z_lt_le_dec f (3 * h)); [exists (f - m), 2; lia|exists (2 * m - f), 3; lia]. }
  destruct D as (q & t & Q & M & D). rewrite spec_low, !AT by lia. destruct (fterm_quarter m l k q Q M f t D (ex_intro _ h HH)) as [E1 E2]. rewrite E1, E2. clear E1 E2.
  pose (A := fun j => spec m (block c m (k + l * j)) q). pose (B := fun j => (root (4 * m) (- (q * j)) * A j)%C).
  assert (TW : forall j, ev c (fst (twid m l k q j)) = fst (B j) /\ ev c (snd (twid m l k q j)) = snd (B j)).
  { intros j. unfold twid. pose proof (mulconj_R c m l j q (In (m * (k + l * j) + (2 * q - 1))) (In (m * (k + l * j) + 2 * q)) Hm HL) as E. cbv zeta in E.
    assert (E' : B j = ((ev c (In (m * (k + l * j) + (2 * q - 1))), ev c (In (m * (k + l * j) + 2 * q))) * root (4 * m) (- (q * j)))%C) by (unfold B, A; rewrite spec_low by assumption; rewrite !IN; ring).
    rewrite <- E in E'. rewrite E'. split; reflexivity. }
  assert (PL : ev c (fst (plain m l k q)) = fst (B 0) /\ ev c (snd (plain m l k q)) = snd (B 0)).
  { unfold B, plain. replace (- (q * 0)) with 0 by lia. rewrite root_0. unfold A. rewrite spec_low by assumption. cbn [fst snd]. rewrite !IN. unfold cmul, c1. cbn [fst snd]. split; ring. }
  destruct PL as [P1 P2]. destruct (TW 1) as [T1 T2]. destruct (TW 2) as [U1 U2]. destruct (TW 3) as [V1 V2].
  assert (FIN : forall X : C, X = merged m l c k f -> forall a b, a = fst X -> b = snd X -> (a, b) = merged m l c k f) by (intros [x y] <- a b -> ->; reflexivity).
  destruct D as [[-> ->]|[[-> ->]|[[-> ->]|[-> ->]]]]; cbn [Z.eqb Pos.eqb eval].
  - apply (FIN (B 0 + B 1 + B 2 + B 3)%C).
    + unfold merged. rewrite Z.mod_small by lia. reflexivity.
    + rewrite P1, T1, U1, V1. unfold exact, cadd. cbn [a_add fst snd]. ring.
    + rewrite P2, T2, U2, V2. unfold exact, cadd. cbn [a_add fst snd]. ring.
  - apply (FIN (conj (B 0 + ci * B 1 - B 2 - ci * B 3))%C).
    + unfold merged. rewrite Z.mod_small by lia. rewrite !spec_conj by lia. fold (A 0). fold (A 1). fold (A 2). fold (A 3).
      replace (- ((m - q) * 0)) with (m * 0 + - (- (q * 0))) by lia. replace (- ((m - q) * 1)) with (m * -1 + - (- (q * 1))) by lia. replace (- ((m - q) * 2)) with (m * -2 + - (- (q * 2))) by lia. replace (- ((m - q) * 3)) with (m * -3 + - (- (q * 3))) by lia.
      rewrite !root_add, !root_4m by lia. rewrite !(root_opp _ (- (q * _))). unfold B. change (-1) with (- (1)). change (-2) with (- (2)). change (-3) with (- (3)). rewrite !(root_opp 4), root_0, root_4_1, root_4_2, root_4_3.
      rewrite !conj_sub, !conj_add, !conj_mul. apply c_eq; unfold cadd, csub, cmul, copp, conj, c1, ci; cbn [fst snd]; ring.
    + rewrite P1, U1, T2, V2. unfold exact, cadd, csub, cmul, conj, ci. cbn [a_add a_sub fst snd]. ring.
    + rewrite P2, U2, T1, V1. unfold exact, cadd, csub, cmul, conj, ci. cbn [a_add a_sub fst snd]. ring.
  - apply (FIN (B 0 - ci * B 1 - B 2 + ci * B 3)%C).
    + unfold merged. assert (MD : (m + q) mod m = q) by (replace (m + q) with (q + 1 * m) by lia; rewrite Z.mod_add by lia; apply Z.mod_small; lia). rewrite !MD. fold (A 0). fold (A 1). fold (A 2). fold (A 3).
      replace (- ((m + q) * 0)) with (m * 0 + - (q * 0)) by lia. replace (- ((m + q) * 1)) with (m * -1 + - (q * 1)) by lia. replace (- ((m + q) * 2)) with (m * -2 + - (q * 2)) by lia. replace (- ((m + q) * 3)) with (m * -3 + - (q * 3)) by lia.
      rewrite !root_add, !root_4m by lia. unfold B. change (-1) with (- (1)). change (-2) with (- (2)). change (-3) with (- (3)). rewrite !(root_opp 4), root_0, root_4_1, root_4_2, root_4_3.
      apply c_eq; unfold cadd, csub, cmul, copp, conj, c1, ci; cbn [fst snd]; ring.
    + rewrite P1, U1, T2, V2. unfold exact, cadd, csub, cmul, conj, ci. cbn [a_add a_sub fst snd]. ring.
    + rewrite P2, U2, T1, V1. unfold exact, cadd, csub, cmul, conj, ci. cbn [a_add a_sub fst snd]. ring.
  - apply (FIN (conj (B 0 - B 1 + B 2 - B 3))%C).
    + unfold merged. assert (MD : (2 * m - q) mod m = m - q) by (replace (2 * m - q) with ((m - q) + 1 * m) by lia; rewrite Z.mod_add by lia; apply Z.mod_small; lia). rewrite !MD. rewrite !spec_conj by lia. fold (A 0). fold (A 1). fold (A 2). fold (A 3).
      replace (- ((2 * m - q) * 0)) with (m * 0 + - (- (q * 0))) by lia. replace (- ((2 * m - q) * 1)) with (m * -2 + - (- (q * 1))) by lia. replace (- ((2 * m - q) * 2)) with (m * 0 + - (- (q * 2)) + 4 * m * -1) by lia. replace (- ((2 * m - q) * 3)) with (m * -2 + - (- (q * 3)) + 4 * m * -1) by lia.
      rewrite !root_period by lia. rewrite !root_add, !root_4m by lia. rewrite !(root_opp _ (- (q * _))). unfold B. change (-2) with (- (2)). rewrite !(root_opp 4), root_0, root_4_2.
      rewrite !conj_sub, !conj_add, !conj_sub, !conj_mul. apply c_eq; unfold cadd, csub, cmul, copp, conj, c1, ci; cbn [fst snd]; ring.
    + rewrite P1, U1, T1, V1. unfold exact, cadd, csub, cmul, conj, ci. cbn [a_add a_sub fst snd]. ring.
    + rewrite P2, U2, T2, V2. unfold exact, cadd, csub, cmul, conj, ci. cbn [a_add a_sub fst snd]. ring.
Qed.
Lemma fstep_spec : forall m l c k f, 0 < m -> (m = 1 \/ exists h, m = 2 * h) -> 4 * m * l = 256 -> 0 <= f < 4 * m ->
  spec (4 * m) (block (fstep exact m l c) (4 * m) k) f = merged m l c k f.
Proof.
  intros m l c k f Hm HE HL Hf. destruct (Z_le_gt_dec f (2 * m)) as [A|A]; [apply fstep_spec_low; try assumption; lia|].
  rewrite spec_high by lia. rewrite fstep_spec_low by (try assumption; lia). unfold merged. rewrite !conj_add, !conj_mul, <- !root_opp.
  assert (R : forall j, root (4 * m) (- - ((4 * m - f) * j)) = root (4 * m) (- (f * j))).
  { intros j. replace (- - ((4 * m - f) * j)) with (- (f * j) + 4 * m * j) by lia. apply root_period. lia. }
  assert (S : forall b, conj (spec m (block c m b) ((4 * m - f) mod m)) = spec m (block c m b) (f mod m)).
  { intros b. replace (4 * m - f) with (- f + 4 * m) by lia. rewrite Z.mod_add by lia. pose proof (Z.mod_pos_bound f m Hm) as P. destruct (Z.eq_dec (f mod m) 0) as [E|E].
    - rewrite Z.mod_opp_l_z by lia. rewrite E, spec_0. unfold conj. cbn [fst snd]. f_equal. ring.
    - rewrite Z.mod_opp_l_nz by lia. rewrite spec_conj by lia. apply conj_conj. }
  rewrite !R, !S. reflexivity.
Qed.

(* ---- discrete Fourier transform ---- *)
Definition dft (m : Z) (y : Z -> R) (f : Z) : C := csum (Z.to_nat m) (fun n => root m (- (f * Z.of_nat n)) * (y (Z.of_nat n), 0%R))%C.
Lemma dft_four : forall m y f, 0 < m ->
  dft (4 * m) y f = (root (4 * m) (- (f * 0)) * dft m (fun n => y (4 * n)%Z) (f mod m) + root (4 * m) (- (f * 1)) * dft m (fun n => y (4 * n + 1)%Z) (f mod m) +
                     root (4 * m) (- (f * 2)) * dft m (fun n => y (4 * n + 2)%Z) (f mod m) + root (4 * m) (- (f * 3)) * dft m (fun n => y (4 * n + 3)%Z) (f mod m))%C.
Proof.
  intros m y f Hm. unfold dft. replace (Z.to_nat (4 * m)) with (4 * Z.to_nat m)%nat by lia. rewrite csum_four. rewrite <- !csum_mul, <- !csum_add. apply csum_ext. intros n Hn.
  assert (R : forall j : nat, root (4 * m) (- (f * Z.of_nat (4 * n + j))) = (root (4 * m) (- (f * Z.of_nat j)) * root m (- (f mod m * Z.of_nat n)))%C).
  { intros j. replace (- (f * Z.of_nat (4 * n + j))) with (- (f * Z.of_nat j) + - (f * Z.of_nat n) * 4) by lia. rewrite root_add. f_equal. rewrite (Z.mul_comm 4 m). rewrite root_scale by lia.
    rewrite (Z.div_mod f m) at 1 by lia. replace (- ((m * (f / m) + f mod m) * Z.of_nat n)) with (- (f mod m * Z.of_nat n) + m * (- (f / m * Z.of_nat n))) by ring. apply root_period. lia. }
  pose proof (R 0%nat) as R0. rewrite Nat.add_0_r in R0. rewrite R0, (R 1%nat), (R 2%nat), (R 3%nat). change (Z.of_nat 0) with 0. change (Z.of_nat 1) with 1. change (Z.of_nat 2) with 2. change (Z.of_nat 3) with 3.
  replace (Z.of_nat (4 * n)) with (4 * Z.of_nat n) by lia. replace (Z.of_nat (4 * n + 1)) with (4 * Z.of_nat n + 1) by lia. replace (Z.of_nat (4 * n + 2)) with (4 * Z.of_nat n + 2) by lia. replace (Z.of_nat (4 * n + 3)) with (4 * Z.of_nat n + 3) by lia. ring.
Qed.
Lemma dft_ext : forall m y z f, (forall n, 0 <= n < m -> y n = z n) -> dft m y f = dft m z f.
Proof. intros m y z f H. unfold dft. apply csum_ext. intros n Hn. rewrite H by lia. reflexivity. Qed.
(* l blocks of m cells hold the transforms of the l decimated sequences *)
Definition holds (x : Z -> R) (m l : Z) (c : Z -> R) : Prop := forall b f, 0 <= b < l -> 0 <= f < m -> spec m (block c m b) f = dft m (fun n => x (b + l * n)) f.
Lemma holds_step : forall x m l c, 0 < m -> (m = 1 \/ exists h, m = 2 * h) -> 4 * m * l = 256 -> holds x m (4 * l) c -> holds x (4 * m) l (fstep exact m l c).
Proof.
  intros x m l c Hm HE HL H b f Hb Hf. rewrite fstep_spec by assumption. unfold merged. rewrite dft_four by exact Hm. pose proof (Z.mod_pos_bound f m Hm).
  rewrite !H by lia. f_equal; [f_equal; [f_equal|]|]; f_equal; apply dft_ext; intros n Hn; f_equal; ring.
Qed.
Lemma holds_start : forall x, holds x 1 256 x.
Proof.
  intros x b f Hb Hf. assert (f = 0) as -> by lia. rewrite spec_0. unfold dft, block. cbn [csum Z.to_nat Pos.to_nat Pos.iter_op]. change (Pos.to_nat 1) with 1%nat. cbn [csum]. change (- (0 * Z.of_nat 0)) with 0. rewrite root_0. change (Z.of_nat 0) with 0.
  replace (b + 256 * 0) with (1 * b + 0) by ring. unfold cadd, cmul, c0, c1. cbn [fst snd]. f_equal; ring.
Qed.
Lemma forward_spec : forall x f, 0 <= f < 256 -> spec 256 (fstep exact 64 1 (fstep exact 16 4 (fstep exact 4 16 (fstep exact 1 64 x)))) f = dft 256 x f.
Proof.
  intros x f Hf. pose proof (holds_start x) as H0.
  assert (H1 : holds x 4 64 (fstep exact 1 64 x)) by (apply (holds_step x 1 64); [lia|now left|reflexivity|exact H0]).
  assert (H2 : holds x 16 16 (fstep exact 4 16 (fstep exact 1 64 x))) by (apply (holds_step x 4 16); [lia|right; now exists 2|reflexivity|exact H1]).
  assert (H3 : holds x 64 4 (fstep exact 16 4 (fstep exact 4 16 (fstep exact 1 64 x)))) by (apply (holds_step x 16 4); [lia|right; now exists 8|reflexivity|exact H2]).
  assert (H4 : holds x 256 1 (fstep exact 64 1 (fstep exact 16 4 (fstep exact 4 16 (fstep exact 1 64 x))))) by (apply (holds_step x 64 1); [lia|right; now exists 32|reflexivity|exact H3]).
  specialize (H4 0 f ltac:(lia) Hf). rewrite (dft_ext 256 _ x) in H4 by (intros n Hn; f_equal; ring). rewrite <- H4. reflexivity.
Qed.

(* ---- backward steps ---- *)
Lemma bstep_at : forall m l c k j r, 0 < m -> 0 < l -> 0 <= k < l -> 0 <= r < m -> bstep exact m l c (m * (k + l * j) + r) = ev c (bterm_at m l k j r).
Proof.
  intros m l c k j r Hm Hl Hk Hr. unfold bstep, bterm. assert (P : (m * (k + l * j) + r) / m = k + l * j) by (rewrite Z.add_comm, Z.mul_comm, Z.div_add by lia; rewrite Z.div_small by lia; lia).
  rewrite P. f_equal. f_equal.
  - rewrite (Z.mul_comm l j), Z.mod_add by lia. apply Z.mod_small. lia.
  - rewrite (Z.mul_comm l j), Z.div_add by lia. rewrite Z.div_small by lia. lia.
  - rewrite Z.add_comm, Z.mul_comm, Z.mod_add by lia. apply Z.mod_small. lia.
Qed.
Definition split4 (m : Z) (c : Z -> R) (k j q : Z) : C :=
  let X := spec (4 * m) (block c (4 * m) k) in (root (4 * m) (q * j) * (X q + root 4 j * X (q + m)%Z + root 4 (2 * j) * X (q + 2 * m)%Z + root 4 (3 * j) * X (q + 3 * m)%Z))%C.
Lemma four : forall j, 0 <= j < 4 -> j = 0 \/ j = 1 \/ j = 2 \/ j = 3. Proof. lia. Qed.
Lemma roots_4 : root 4 (2 * 0) = c1 /\ root 4 (3 * 0) = c1 /\ root 4 (2 * 1) = (- c1)%C /\ root 4 (3 * 1) = (- ci)%C /\ root 4 (2 * 2) = c1 /\ root 4 (3 * 2) = (- c1)%C /\ root 4 (2 * 3) = (- c1)%C /\ root 4 (3 * 3) = ci /\
  root 4 0 = c1 /\ root 4 1 = ci /\ root 4 2 = (- c1)%C /\ root 4 3 = (- ci)%C.
Proof.
  assert (E6 : root 4 6 = (- c1)%C) by (change 6 with (2 + 4 * 1); rewrite root_period by lia; apply root_4_2).
  assert (E9 : root 4 9 = ci) by (change 9 with (1 + 4 * 2); rewrite root_period by lia; apply root_4_1).
  assert (E4 : root 4 4 = c1) by (apply root_full; lia).
  pose proof root_4_1. pose proof root_4_2. pose proof root_4_3. pose proof (root_0 4). repeat split; assumption.
Qed.
Lemma bstep_spec_low : forall m l c k j q, 0 < m -> 0 < l -> (m = 1 \/ exists h, m = 2 * h) -> 4 * m * l = 256 -> 0 <= k < l -> 0 <= j < 4 -> 0 <= q -> 2 * q <= m -> q < m ->
  spec m (block (bstep exact m l c) m (k + l * j)) q = split4 m c k j q.
Proof.
  intros m l c k j q Hm Hl HE HL Hk Hj Hq HM QM.
  assert (AT : forall r, 0 <= r < m -> block (bstep exact m l c) m (k + l * j) r = ev c (bterm_at m l k j r)) by (intros; now apply bstep_at).
  destruct roots_4 as (R0 & R1 & R2 & R3 & R4 & R5 & R6 & R7 & R8 & R9 & R10 & R11).
  destruct (Z.eq_dec q 0) as [->|N0].
  { rewrite spec_0, AT by lia. unfold split4. rewrite spec_0, (spec_low (4 * m) _ (0 + m)), (spec_mid (4 * m) _ (0 + 2 * m)), (spec_high (4 * m) _ (0 + 3 * m)) by lia. replace (4 * m - (0 + 3 * m)) with m by lia. rewrite (spec_low _ _ m) by lia. rewrite Z.mul_0_l, root_0.
    unfold bterm_at. cbv zeta. yes. replace (2 * (0 + m)) with (2 * m) by lia.
    destruct (four j Hj) as [->|[->|[->| ->]]]; cbn [Z.eqb Pos.eqb eval]; rewrite ?R0, ?R1, ?R2, ?R3, ?R4, ?R5, ?R6, ?R7, ?R8, ?R9, ?R10, ?R11; unfold cadd, cmul, copp, conj, c1, ci, block, exact; cbn [fst snd a_add a_sub a_mul a_two]; f_equal; ring. }
  assert (HH : exists h, m = 2 * h) by (destruct HE as [->|HE]; [lia|exact HE]). clear HE. destruct HH as [h HH].
  assert (SQ : (sqrt 2 <> 0)%R) by (apply Rgt_not_eq, sqrt_lt_R0; lra). assert (S2 : (sqrt 2 = 2 * / sqrt 2)%R) by (apply (Rmult_eq_reg_r (sqrt 2)); [|exact SQ]; rewrite sqrt_def by lra; field; exact SQ).
  destruct (Z.eq_dec (2 * q) m) as [E2|N2].
  { rewrite spec_mid, AT by lia. unfold split4. rewrite (spec_low (4 * m) _ q), (spec_low (4 * m) _ (q + m)), (spec_high (4 * m) _ (q + 2 * m)), (spec_high (4 * m) _ (q + 3 * m)) by lia.
    rewrite (spec_low (4 * m) _ (4 * m - (q + 2 * m))), (spec_low (4 * m) _ (4 * m - (q + 3 * m))) by lia. rewrite root_8m by lia.
    replace (2 * (4 * m - (q + 2 * m))) with (3 * m) by lia. replace (2 * (4 * m - (q + 3 * m))) with m by lia. replace (2 * (q + m)) with (3 * m) by lia. rewrite E2.
    unfold bterm_at. cbv zeta. no. yes.
    assert (E82 : root 8 2 = ci) by (change (root 8 2) with (root (4 * 2) (1 * 2)); rewrite root_scale by lia; apply root_4_1).
    assert (E83 : root 8 3 = (root 8 1 * ci)%C) by (change 3 with (1 + 2); rewrite root_add, E82; reflexivity).
    destruct (four j Hj) as [->|[->|[->| ->]]]; cbn [Z.eqb Pos.eqb eval]; rewrite ?root_0, ?E83, ?E82, ?root_8_1, ?R0, ?R1, ?R2, ?R3, ?R4, ?R5, ?R6, ?R7, ?R8, ?R9, ?R10, ?R11; unfold cadd, cmul, copp, conj, c1, ci, block, exact; cbn [fst snd a_add a_sub a_mul a_two a_ms]; clear - S2; revert S2; generalize (/ sqrt 2)%R; intros s S2; try rewrite S2; f_equal; ring. }
  rewrite spec_low, !AT by lia. unfold split4. rewrite (spec_low (4 * m) _ q), (spec_low (4 * m) _ (q + m)), (spec_high (4 * m) _ (q + 2 * m)), (spec_high (4 * m) _ (q + 3 * m)) by lia.
  rewrite (spec_low (4 * m) _ (4 * m - (q + 2 * m))), (spec_low (4 * m) _ (4 * m - (q + 3 * m))) by lia.
  replace (4 * m - (q + 2 * m)) with (2 * m - q) by lia. replace (4 * m - (q + 3 * m)) with (m - q) by lia. replace (q + m) with (m + q) by lia.
  unfold bterm_at. cbv zeta. rewrite (proj2 (Z.eqb_neq (2 * q - 1) 0)), (proj2 (Z.eqb_neq (2 * q) 0)), (proj2 (Z.eqb_neq (2 * q - 1) (m - 1))), (proj2 (Z.eqb_neq (2 * q) (m - 1))) by lia. rewrite half_odd, half_even, odd_odd, odd_even.
  assert (FIN : forall (z : term * term) X, (ev c (fst z), ev c (snd z)) = X -> forall Y, X = Y -> (ev c (fst z), ev c (snd z)) = Y) by (intros; congruence).
  destruct (four j Hj) as [->|[->|[->| ->]]]; cbn [Z.eqb Pos.eqb].
  - cbn [fst snd eval]. rewrite Z.mul_0_r, root_0, R0, R1, R8. unfold cadd, cmul, copp, conj, c1, ci, block, exact; cbn [fst snd a_add a_sub a_mul]; f_equal; ring.
  - eapply FIN; [apply (mul_R c m l 1 q); assumption|]. rewrite R2, R3, R9. cbn [eval]. rewrite (cmul_comm (root _ _)). f_equal. unfold cadd, cmul, copp, conj, c1, ci, block, exact; cbn [fst snd a_add a_sub a_mul]; f_equal; ring.
  - eapply FIN; [apply (mul_R c m l 2 q); assumption|]. rewrite R4, R5, R10. cbn [eval]. rewrite (cmul_comm (root _ _)). f_equal. unfold cadd, cmul, copp, conj, c1, ci, block, exact; cbn [fst snd a_add a_sub a_mul]; f_equal; ring.
  - eapply FIN; [apply (mul_R c m l 3 q); assumption|]. rewrite R6, R7, R11. cbn [eval]. rewrite (cmul_comm (root _ _)). f_equal. unfold cadd, cmul, copp, conj, c1, ci, block, exact; cbn [fst snd a_add a_sub a_mul]; f_equal; ring.
Qed.
Lemma split4_conj : forall m c k j q, 0 < m -> 0 < q < m -> conj (split4 m c k j (m - q)) = split4 m c k j q.
Proof.
  intros m c k j q Hm Hq. unfold split4. cbv zeta. set (X := spec (4 * m) (block c (4 * m) k)).
  assert (CX : forall f, 0 < f < 4 * m -> X (4 * m - f) = conj (X f)) by (intros; unfold X; now apply spec_conj).
  replace (m - q) with (4 * m - (q + 3 * m)) at 2 by lia. replace (m - q + m) with (4 * m - (q + 2 * m)) by lia. replace (m - q + 2 * m) with (4 * m - (q + m)) by lia. replace (m - q + 3 * m) with (4 * m - q) by lia.
  rewrite !CX by lia. rewrite !conj_mul, !conj_add, !conj_mul, !conj_conj, <- !root_opp.
  replace (- ((m - q) * j)) with (q * j + m * (- j)) by lia. rewrite root_add, root_4m by lia.
  assert (E : forall a b, (root 4 (- j) * root 4 (- (a * j)) = root 4 ((3 - a) * j) -> b = a -> root 4 (- j) * root 4 (- (b * j)) = root 4 ((3 - b) * j))%C) by (intros; now subst).
  assert (F : forall a, (root 4 (- j) * root 4 (- (a * j)) = root 4 ((3 - a) * j))%C).
  { intros a. rewrite <- root_add. replace (- j + - (a * j)) with ((3 - a) * j + 4 * (- j)) by ring. apply root_period. lia. }
  pose proof (F 0) as F0. pose proof (F 1) as F1. pose proof (F 2) as F2. pose proof (F 3) as F3. replace (- (0 * j)) with 0 in F0 by lia. replace ((3 - 0) * j) with (3 * j) in F0 by lia. replace ((3 - 1) * j) with (2 * j) in F1 by lia. replace (- (1 * j)) with (- j) in F1 by lia. replace ((3 - 2) * j) with j in F2 by lia. replace ((3 - 3) * j) with 0 in F3 by lia. rewrite root_0 in F0, F3.
  transitivity (root (4 * m) (q * j) * (root 4 (- j) * root 4 (- (3 * j)) * X q + root 4 (- j) * root 4 (- (2 * j)) * X (q + m)%Z + root 4 (- j) * root 4 (- j) * X (q + 2 * m)%Z + root 4 (- j) * c1 * X (q + 3 * m)%Z))%C; [ring|].
  rewrite F0, F1, F2, F3. ring.
Qed.
Lemma bstep_spec : forall m l c k j q, 0 < m -> 0 < l -> (m = 1 \/ exists h, m = 2 * h) -> 4 * m * l = 256 -> 0 <= k < l -> 0 <= j < 4 -> 0 <= q < m ->
  spec m (block (bstep exact m l c) m (k + l * j)) q = split4 m c k j q.
Proof.
  intros m l c k j q Hm Hl HE HL Hk Hj Hq. destruct (Z_le_gt_dec (2 * q) m) as [A|A]; [apply bstep_spec_low; try assumption; lia|].
  rewrite spec_high by lia. rewrite bstep_spec_low by (try assumption; lia). apply split4_conj; lia.
Qed.
Definition idft (m : Z) (X : Z -> C) (n : Z) : C := csum (Z.to_nat m) (fun q => root m (Z.of_nat q * n) * X (Z.of_nat q))%C.
Lemma idft_ext : forall m X Y n, (forall q, 0 <= q < m -> X q = Y q) -> idft m X n = idft m Y n.
Proof. intros m X Y n H. unfold idft. apply csum_ext. intros q Hq. rewrite H by lia. reflexivity. Qed.
Lemma idft_step : forall m l c k j n, 0 < m -> 0 < l -> (m = 1 \/ exists h, m = 2 * h) -> 4 * m * l = 256 -> 0 <= k < l -> 0 <= j < 4 ->
  idft m (spec m (block (bstep exact m l c) m (k + l * j))) n = idft (4 * m) (spec (4 * m) (block c (4 * m) k)) (4 * n + j).
Proof.
  intros m l c k j n Hm Hl HE HL Hk Hj. rewrite (idft_ext m _ (split4 m c k j)) by (intros; now apply (bstep_spec m l)). unfold idft. replace (Z.to_nat (4 * m)) with (4 * Z.to_nat m)%nat by lia. rewrite csum_blocks. apply csum_ext. intros q Hq.
  replace (Z.of_nat (Z.to_nat m + q)) with (Z.of_nat q + m) by lia. replace (Z.of_nat (2 * Z.to_nat m + q)) with (Z.of_nat q + 2 * m) by lia. replace (Z.of_nat (3 * Z.to_nat m + q)) with (Z.of_nat q + 3 * m) by lia.
  unfold split4. cbv zeta. set (X := spec (4 * m) (block c (4 * m) k)). set (z := Z.of_nat q).
  assert (R : forall t, root (4 * m) ((z + t * m) * (4 * n + j)) = (root m (z * n) * root (4 * m) (z * j) * root 4 (t * j))%C).
  { intros t. replace ((z + t * m) * (4 * n + j)) with (z * n * 4 + z * j + m * (t * j) + 4 * m * (t * n)) by ring. rewrite root_period by lia. rewrite !root_add, root_4m by lia. rewrite (Z.mul_comm 4 m), root_scale by lia. reflexivity. }
  pose proof (R 0) as R0. pose proof (R 1) as R1. replace (z + 0 * m) with z in R0 by lia. replace (0 * j) with 0 in R0 by lia. rewrite root_0 in R0. replace (z + 1 * m) with (z + m) in R1 by lia. replace (1 * j) with j in R1 by lia. rewrite R0, R1, (R 2), (R 3). ring.
Qed.
Lemma idft_1 : forall X, idft 1 X 0 = X 0.
Proof. intros X. unfold idft. change (Z.to_nat 1) with 1%nat. cbn [csum]. change (Z.of_nat 0) with 0. rewrite Z.mul_0_l, root_0. ring. Qed.
Lemma backward_spec : forall c n, 0 <= n < 256 ->
  (bstep exact 1 64 (bstep exact 4 16 (bstep exact 16 4 (bstep exact 64 1 c))) n, 0%R) = idft 256 (spec 256 c) n.
Proof.
  intros c n Hn. set (c1 := bstep exact 64 1 c). set (c2 := bstep exact 16 4 c1). set (c3 := bstep exact 4 16 c2).
  assert (DM : forall a, 0 <= a -> a = 4 * (a / 4) + a mod 4 /\ 0 <= a mod 4 < 4 /\ 0 <= a / 4) by (intros a Ha; split; [apply Z.div_mod; lia|split; [apply Z.mod_pos_bound; lia|apply Z.div_pos; lia]]).
  destruct (DM n) as (E0 & J0 & P0); [lia|]. set (n1 := n / 4) in *. set (j0 := n mod 4) in *. destruct (DM n1 P0) as (E1 & J1 & P1). set (n2 := n1 / 4) in *. set (j1 := n1 mod 4) in *.
  destruct (DM n2 P1) as (E2 & J2 & P2). set (n3 := n2 / 4) in *. set (j2 := n2 mod 4) in *.
  (* block after the steps: j0, j0 + 4 j1, j0 + 4 j1 + 16 j2, j0 + 4 j1 + 16 j2 + 64 n3 *)
  pose proof (idft_step 1 64 c3 (j0 + 4 * j1 + 16 * j2) n3 0 ltac:(lia) ltac:(lia) (or_introl eq_refl) eq_refl ltac:(lia) ltac:(lia)) as S3.
  pose proof (idft_step 4 16 c2 (j0 + 4 * j1) j2 n3 ltac:(lia) ltac:(lia) (or_intror (ex_intro _ 2 eq_refl)) eq_refl ltac:(lia) ltac:(lia)) as S2.
  pose proof (idft_step 16 4 c1 j0 j1 n2 ltac:(lia) ltac:(lia) (or_intror (ex_intro _ 8 eq_refl)) eq_refl ltac:(lia) ltac:(lia)) as S1.
  pose proof (idft_step 64 1 c 0 j0 n1 ltac:(lia) ltac:(lia) (or_intror (ex_intro _ 32 eq_refl)) eq_refl ltac:(lia) ltac:(lia)) as S0.
  fold c1 in S0. fold c2 in S1. fold c3 in S2. rewrite idft_1, spec_0 in S3. rewrite <- E0 in S0. rewrite <- E1 in S1. rewrite <- E2 in S2.
  replace (0 + 1 * j0) with j0 in S0 by lia. change (4 * 64) with 256 in S0. replace (idft 256 (spec 256 (block c 256 0)) n) with (idft 256 (spec 256 c) n) in S0 by reflexivity.
  change (4 * 16) with 64 in S1. change (4 * 4) with 16 in S2. change (4 * 1) with 4 in S3. replace (4 * 0 + n3) with n3 in S3 by lia. rewrite S0 in S1. rewrite S1 in S2. rewrite S2 in S3.
  rewrite <- S3. unfold block. f_equal. f_equal. lia.
Qed.

(* ---- the results in real terms ---- *)
Lemma csum_total : forall n f g, (forall k, (k < n)%nat -> f k = (fst (f k), snd (f k)) /\ fst (f k) = g k) -> fst (csum n f) = total n g.
Proof. induction n as [|n IH]; intros f g H; cbn [csum total]; [reflexivity|]. unfold cadd. cbn [fst]. rewrite (IH f g) by (intros; apply H; lia). destruct (H n ltac:(lia)) as [_ ->]. reflexivity. Qed.
Lemma csum_fst : forall n f, fst (csum n f) = total n (fun k => fst (f k)).
Proof. induction n as [|n IH]; intros f; cbn [csum total]; [reflexivity|]. unfold cadd. cbn [fst]. now rewrite IH. Qed.
Lemma csum_snd : forall n f, snd (csum n f) = total n (fun k => snd (f k)).
Proof. induction n as [|n IH]; intros f; cbn [csum total]; [reflexivity|]. unfold cadd. cbn [snd]. now rewrite IH. Qed.
Lemma total_ext : forall n f g, (forall k, (k < n)%nat -> f k = g k) -> total n f = total n g.
Proof. induction n as [|n IH]; intros f g H; cbn [total]; [reflexivity|]. rewrite (IH f g), (H n); auto. Qed.
Lemma total_opp : forall n f, total n (fun k => (- f k)%R) = (- total n f)%R.
Proof. induction n as [|n IH]; intros f; cbn [total]; [ring|]. rewrite IH. ring. Qed.
Lemma root_turn : forall k m, root 256 (Z.of_nat k * Z.of_nat m) = (cos (turn k m), sin (turn k m)).
Proof. intros k m. unfold root, cis, turn. rewrite mult_IZR, <- !INR_IZR_INZ. reflexivity. Qed.
Lemma env_sample : forall x m, length x = 256%nat -> (m < 256)%nat -> env_of exact x (Z.of_nat m) = sample x m.
Proof. intros x m L H. unfold env_of, sample. rewrite Nat2Z.id. apply nth_indep. lia. Qed.
Lemma dft_bins : forall x k, length x = 256%nat -> dft 256 (env_of exact x) (Z.of_nat k) = (bin_re x k, bin_im x k).
Proof.
  intros x k L. apply c_eq; cbn [fst snd]; unfold dft; change (Z.to_nat 256) with 256%nat.
  - rewrite csum_fst. apply total_ext. intros m Hm. rewrite root_opp, root_turn, env_sample by assumption. unfold cmul, conj. cbn [fst snd]. ring.
  - rewrite csum_snd. unfold bin_im. rewrite <- total_opp. apply total_ext. intros m Hm. rewrite root_opp, root_turn, env_sample by assumption. unfold cmul, conj. cbn [fst snd]. ring.
Qed.
Lemma packed_length : forall re im, length (packed re im) = 256%nat.
Proof.
  intros re im. unfold packed. cbn [length]. assert (E : forall l : list nat, length (flat_map (fun k => [re k; im k]) l) = (2 * length l)%nat) by (induction l as [|a l IH]; cbn [flat_map app length]; lia). rewrite E, seq_length. reflexivity.
Qed.
Lemma packed_nth : forall re im k d, (1 <= k <= 127)%nat -> nth (2 * k) (packed re im) d = re k /\ nth (2 * k + 1) (packed re im) d = im k.
Proof.
  intros re im k d H. unfold packed. replace (2 * k)%nat with (S (S (2 * (k - 1)))) by lia. cbn [nth Nat.add].
  assert (E : forall n a i, (i < n)%nat -> nth (2 * i) (flat_map (fun k => [re k; im k]) (seq a n)) d = re (a + i)%nat /\ nth (2 * i + 1) (flat_map (fun k => [re k; im k]) (seq a n)) d = im (a + i)%nat).
  { induction n as [|n IH]; intros a i Hi; [lia|]. cbn [seq flat_map app]. destruct i as [|i]; [rewrite Nat.add_0_r; split; reflexivity|]. replace (2 * S i)%nat with (S (S (2 * i))) by lia. cbn [nth Nat.add]. replace (a + S i)%nat with (S a + i)%nat by lia. apply IH. lia. }
  replace k with (1 + (k - 1))%nat at 2 4 by lia. apply E. lia.
Qed.
Lemma map_zs_nth : forall {A} (g : Z -> A) n d, (n < 256)%nat -> nth n (map g (zs 256)) d = g (Z.of_nat n).
Proof. intros A g n d H. unfold zs. rewrite map_map. erewrite nth_indep by (rewrite map_length, seq_length; exact H). rewrite (map_nth (fun x => g (Z.of_nat x)) (seq 0 256) 0%nat). now rewrite seq_nth. Qed.
Theorem fft_exact : forall x out scr, length x = 256%nat -> length out = 256%nat -> length scr = 256%nat -> fft256 exact x out scr = Ok (packed (bin_re x) (bin_im x)).
Proof.
  intros x out scr Lx Lo Ls. rewrite fft256_run by assumption. f_equal. apply nth_ext with (d := 0%R) (d' := 0%R); [unfold zs; now rewrite packed_length, !map_length, seq_length|]. unfold zs at 1. rewrite !map_length, seq_length. intros n Hn. rewrite map_zs_nth by exact Hn.
  unfold forward. set (c := fstep exact 64 1 _). assert (SP : forall k, (k < 256)%nat -> spec 256 c (Z.of_nat k) = (bin_re x k, bin_im x k)) by (intros k Hk; rewrite <- dft_bins by exact Lx; unfold c; apply forward_spec; lia).
  destruct n as [|[|n]].
  - specialize (SP 0%nat ltac:(lia)). change (Z.of_nat 0) with 0 in SP. rewrite spec_0 in SP. exact (f_equal fst SP).
  - specialize (SP 128%nat ltac:(lia)). rewrite spec_mid in SP by reflexivity. exact (f_equal fst SP).
  - unfold fwd_pos. rewrite (proj2 (Z.eqb_neq _ 0)), (proj2 (Z.eqb_neq _ 1)) by lia. destruct (Nat.Even_or_Odd n) as [[k E]|[k E]].
    + specialize (SP (k + 1)%nat ltac:(lia)). rewrite spec_low in SP by lia. apply (f_equal fst) in SP; cbn [fst] in SP. replace (Z.of_nat (S (S n)) - 1) with (2 * Z.of_nat (k + 1) - 1) by lia. rewrite SP. replace (S (S n)) with (2 * (k + 1))%nat by lia. symmetry. apply packed_nth. lia.
    + specialize (SP (k + 1)%nat ltac:(lia)). rewrite spec_low in SP by lia. apply (f_equal snd) in SP; cbn [snd] in SP. replace (Z.of_nat (S (S n)) - 1) with (2 * Z.of_nat (k + 1)) by lia. rewrite SP. replace (S (S n)) with (2 * (k + 1) + 1)%nat by lia. symmetry. apply packed_nth. lia.
Qed.
(* the spectrum of the packed input of the backward transform *)
Definition unpack (y : Z -> R) : Z -> C := spec 256 (fun k => y (bwd_pos k)).
Lemma unpack_0 : forall y, unpack y 0 = (y 0, 0%R). Proof. reflexivity. Qed.
Lemma unpack_128 : forall y, unpack y 128 = (y 1, 0%R). Proof. reflexivity. Qed.
Lemma unpack_low : forall y k, 0 < k < 128 -> unpack y k = (y (2 * k), y (2 * k + 1)).
Proof.
  intros y k H. unfold unpack. rewrite spec_low by lia. unfold bwd_pos. rewrite (proj2 (Z.eqb_neq (2 * k - 1) 0)), (proj2 (Z.eqb_neq (2 * k) 0)), (proj2 (Z.eqb_neq (2 * k - 1) 255)), (proj2 (Z.eqb_neq (2 * k) 255)) by lia. f_equal; f_equal; lia.
Qed.
Lemma backward_idft : forall x n, 0 <= n < 256 -> (backward exact x n, 0%R) = idft 256 (unpack x) n.
Proof. intros x n H. unfold backward. now rewrite backward_spec. Qed.
Lemma total_rev : forall n f, total n f = total n (fun k => f (n - 1 - k)%nat).
Proof.
  induction n as [|n IH]; intros f; [reflexivity|]. cbn [total]. 
  assert (E : forall n f, total (S n) f = (f 0%nat + total n (fun k => f (S k)))%R) by (clear; induction n as [|n IH]; intros f; [cbn [total]; ring|]; change (total (S (S n)) f) with (total (S n) f + f (S n))%R; rewrite IH; cbn [total]; ring).
  change (total n (fun k => f (S n - 1 - k)%nat) + f (S n - 1 - n)%nat)%R with (total (S n) (fun k => f (S n - 1 - k)%nat)). rewrite E. rewrite (IH f). replace (S n - 1 - 0)%nat with n by lia. rewrite Rplus_comm. f_equal. apply total_ext. intros k Hk. f_equal. lia.
Qed.
Lemma total_app : forall a b f, total (a + b) f = (total a f + total b (fun k => f (a + k)%nat))%R.
Proof. intros a. induction b as [|b IH]; intros f; [rewrite Nat.add_0_r; cbn [total]; ring|]. rewrite Nat.add_succ_r. cbn [total]. rewrite IH. ring. Qed.
Lemma total_scal : forall n a f, total n (fun k => (a * f k)%R) = (a * total n f)%R.
Proof. induction n as [|n IH]; intros a f; cbn [total]; [ring|]. rewrite IH. ring. Qed.
Theorem ifft_exact : forall y out scr, length y = 256%nat -> length out = 256%nat -> length scr = 256%nat -> ifft256 exact y out scr = Ok (map (synthesis y) (seq 0 256)).
Proof.
  intros y out scr Ly Lo Ls. rewrite ifft256_run by assumption. f_equal. unfold zs. rewrite map_map. apply map_ext_in. intros n Hn. apply in_seq in Hn.
  pose proof (backward_idft (env_of exact y) (Z.of_nat n) ltac:(lia)) as E. pose proof (f_equal fst E) as E1. cbn [fst] in E1. rewrite E1. unfold idft. rewrite csum_fst.
  assert (EV : forall i, (i < 256)%nat -> env_of exact y (Z.of_nat i) = sample y i) by (intros; now apply env_sample).
  unfold synthesis. 
  set (g := fun q : nat => fst (root 256 (Z.of_nat q * Z.of_nat n) * unpack (env_of exact y) (Z.of_nat q))%C).
  assert (G0 : g 0%nat = sample y 0) by (unfold g; change (Z.of_nat 0) with 0; rewrite Z.mul_0_l, root_0, unpack_0; change 0 with (Z.of_nat 0); rewrite EV by lia; unfold cmul, c1; cbn [fst snd]; ring).
  assert (G1 : g 128%nat = (sample y 1 * cos (turn 128 n))%R) by (unfold g; rewrite root_turn; change (Z.of_nat 128) with 128; rewrite unpack_128; change 1 with (Z.of_nat 1); rewrite EV by lia; unfold cmul, c1; cbn [fst snd]; ring).
  assert (GL : forall k, (k < 127)%nat -> g (S k) = (sample y (2 * S k) * cos (turn (S k) n) - sample y (2 * S k + 1) * sin (turn (S k) n))%R).
  { intros k Hk. unfold g. rewrite root_turn. rewrite unpack_low by lia. replace (2 * Z.of_nat (S k)) with (Z.of_nat (2 * S k)) by lia. replace (Z.of_nat (2 * S k) + 1) with (Z.of_nat (2 * S k + 1)) by lia. rewrite !EV by lia. unfold cmul. cbn [fst snd]. ring. }
  assert (GH : forall k, (0 < k < 128)%nat -> g (256 - k)%nat = g k).
  { intros k Hk. unfold g. replace (Z.of_nat (256 - k)) with (256 - Z.of_nat k) by lia. unfold unpack. rewrite spec_conj by lia. replace ((256 - Z.of_nat k) * Z.of_nat n) with (- (Z.of_nat k * Z.of_nat n) + 256 * Z.of_nat n) by ring. rewrite root_period by lia. rewrite root_opp, <- conj_mul. reflexivity. }
  match goal with |- total _ _ = _ => change (total (1 + (127 + (1 + 127))) g = sample y 0 + sample y 1 * cos (turn 128 n) + 2 * total 127 (fun k => sample y (2 * S k) * cos (turn (S k) n) - sample y (2 * S k + 1) * sin (turn (S k) n)))%R end. rewrite !total_app. cbv beta.
  rewrite (total_ext 127 (fun k => g (1 + k)%nat) (fun k => (sample y (2 * S k) * cos (turn (S k) n) - sample y (2 * S k + 1) * sin (turn (S k) n))%R)) by (intros k Hk; apply GL, Hk).
  rewrite (total_rev 127 (fun k => g (1 + (127 + (1 + k)))%nat)).
  rewrite (total_ext 127 (fun k => g (1 + (127 + (1 + (127 - 1 - k))))%nat) (fun k => (sample y (2 * S k) * cos (turn (S k) n) - sample y (2 * S k + 1) * sin (turn (S k) n))%R)).
  2: { intros k Hk. replace (1 + (127 + (1 + (127 - 1 - k))))%nat with (256 - S k)%nat by lia. rewrite GH by lia. apply GL, Hk. }
  change (total 1 g) with (0 + g 0%nat)%R. change (total 1 (fun k => g (1 + (127 + k))%nat)) with (0 + g 128%nat)%R. rewrite G0, G1. ring.
Qed.

(* ---- forward then backward ---- *)
Lemma csum_single : forall n f i, (i < n)%nat -> (forall k, (k < n)%nat -> k <> i -> f k = c0) -> csum n f = f i.
Proof.
  induction n as [|n IH]; intros f i Hi H; [lia|]. cbn [csum]. destruct (Nat.eq_dec i n) as [->|N].
  - rewrite (csum_ext n f (fun _ => c0)) by (intros k Hk; apply H; lia). rewrite csum_zero. ring.
  - rewrite (IH f i) by (try (intros; apply H); lia). rewrite (H n) by lia. ring.
Qed.
Lemma csum_const : forall n, csum n (fun _ => PCpx.c1) = (INR n, 0%R).
Proof. induction n as [|n IH]; [reflexivity|]. cbn [csum]. rewrite IH, S_INR. unfold cadd, PCpx.c1. cbn [fst snd]. f_equal; ring. Qed.
Lemma idft_dft : forall x n, 0 <= n < 256 -> idft 256 (dft 256 x) n = ((256 * x n)%R, 0%R).
Proof.
  intros x n H. unfold idft, dft. change (Z.to_nat 256) with 256%nat.
  rewrite (csum_ext 256 _ (fun q => csum 256 (fun m => root 256 (Z.of_nat q * n) * (root 256 (- (Z.of_nat q * Z.of_nat m)) * (x (Z.of_nat m), 0%R)))%C)) by (intros; symmetry; apply csum_mul).
  rewrite csum_swap. rewrite (csum_ext 256 _ (fun m => (x (Z.of_nat m), 0%R) * csum 256 (fun q => root 256 ((n - Z.of_nat m) * Z.of_nat q)))%C).
  2: { intros m Hm. rewrite <- csum_mul. apply csum_ext. intros q Hq. replace ((n - Z.of_nat m) * Z.of_nat q) with (Z.of_nat q * n + - (Z.of_nat q * Z.of_nat m)) by ring. rewrite root_add. ring. }
  rewrite (csum_single 256 _ (Z.to_nat n)).
  - rewrite Z2Nat.id by lia. rewrite (csum_ext 256 _ (fun _ => PCpx.c1)) by (intros; rewrite Z.sub_diag, Z.mul_0_l; apply root_0). rewrite csum_const. replace (INR 256) with 256%R by (rewrite INR_IZR_INZ; reflexivity). unfold cmul. cbn [fst snd]. f_equal; ring.
  - lia.
  - intros m Hm N. assert (E : csum 256 (fun q => root 256 ((n - Z.of_nat m) * Z.of_nat q)) = c0); [|rewrite E; ring].
    destruct (Z_lt_le_dec (n - Z.of_nat m) 0) as [A|A].
    + rewrite (csum_ext 256 _ (fun q => root (Z.of_nat 256) ((n - Z.of_nat m + 256) * Z.of_nat q))); [apply root_sum; lia|]. intros q Hq. change (Z.of_nat 256) with 256. replace ((n - Z.of_nat m + 256) * Z.of_nat q) with ((n - Z.of_nat m) * Z.of_nat q + 256 * Z.of_nat q) by ring. rewrite root_period by lia. reflexivity.
    + change 256 with (Z.of_nat 256). apply root_sum. lia.
Qed.
Lemma spec_ext : forall m g h q, 0 < m -> 0 <= q < m -> (forall i, 0 <= i < m -> g i = h i) -> spec m g q = spec m h q.
Proof.
  intros m g h q Hm Hq H. unfold spec. destruct (Z.eqb_spec q 0); [rewrite H by lia; reflexivity|]. destruct (Z.ltb_spec (2 * q) m); [rewrite !H by lia; reflexivity|]. destruct (Z.eqb_spec (2 * q) m); rewrite !H by lia; reflexivity.
Qed.
Lemma pos_inverse : forall k, 0 <= k < 256 -> fwd_pos (bwd_pos k) = k /\ 0 <= bwd_pos k < 256.
Proof.
  intros k H. unfold bwd_pos. destruct (Z.eqb_spec k 0) as [->|]; [split; [reflexivity|lia]|]. destruct (Z.eqb_spec k 255) as [->|]; [split; [reflexivity|lia]|].
  unfold fwd_pos. rewrite (proj2 (Z.eqb_neq (k + 1) 0)), (proj2 (Z.eqb_neq (k + 1) 1)) by lia. split; lia.
Qed.
Theorem roundtrip_exact : forall x y out scr out' scr', length x = 256%nat -> length out = 256%nat -> length scr = 256%nat -> length out' = 256%nat -> length scr' = 256%nat ->
  fft256 exact x out scr = Ok y -> ifft256 exact y out' scr' = Ok (map (Rmult 256) x).
Proof.
  intros x y out scr out' scr' Lx Lo Ls Lo' Ls' E. rewrite fft256_run in E by assumption. assert (Y : y = map (forward exact (env_of exact x)) (zs 256)) by congruence. clear E.
  assert (Ly : length y = 256%nat) by (rewrite Y; unfold zs; now rewrite !map_length, seq_length).
  rewrite ifft256_run by assumption. f_equal. apply nth_ext with (d := 0%R) (d' := 0%R); [unfold zs; now rewrite !map_length, seq_length|]. unfold zs at 1. rewrite !map_length, seq_length. intros n Hn. rewrite map_zs_nth by exact Hn.
  pose proof (backward_idft (env_of exact y) (Z.of_nat n) ltac:(lia)) as B. apply (f_equal fst) in B. cbn [fst] in B. rewrite B. clear B.
  rewrite (idft_ext 256 _ (dft 256 (env_of exact x))).
  - rewrite idft_dft by lia. cbn [fst]. rewrite env_sample by assumption. rewrite nth_indep with (d' := Rmult 256 0) by (rewrite map_length; lia). rewrite map_nth. reflexivity.
  - intros q Hq. rewrite <- forward_spec by exact Hq. unfold unpack. apply spec_ext; [lia|exact Hq|]. intros i Hi. destruct (pos_inverse i Hi) as [P1 P2].
    unfold env_of at 1. rewrite Y. rewrite map_zs_nth by lia. rewrite Z2Nat.id by lia. unfold forward. now rewrite P1.
Qed.
Lemma total_zero : forall n f, (forall k, (k < n)%nat -> f k = 0%R) -> total n f = 0%R.
Proof. induction n as [|n IH]; intros f H; cbn [total]; [reflexivity|]. rewrite IH by (intros k K; apply H; lia). rewrite H by lia. lra. Qed.
Lemma total_single : forall n f i, (i < n)%nat -> (forall k, (k < n)%nat -> k <> i -> f k = 0%R) -> total n f = f i.
Proof.
  induction n as [|n IH]; intros f i Hi H; [lia|]. cbn [total]. destruct (Nat.eq_dec i n) as [->|N].
  - rewrite total_zero by (intros k K; apply H; lia). lra.
  - rewrite (IH f i) by (try lia; intros k K M; apply H; lia). rewrite (H n) by lia. lra.
Qed.
Definition impulse_at (p : nat) : list R := map (fun m => if Nat.eqb m p then 1%R else 0%R) (seq 0 256).
Lemma impulse_sample : forall p m, (m < 256)%nat -> sample (impulse_at p) m = if Nat.eqb m p then 1%R else 0%R.
Proof. intros p m H. unfold sample, impulse_at. rewrite nth_indep with (d' := (fun m => if Nat.eqb m p then 1%R else 0%R) 0%nat) by (rewrite map_length, seq_length; lia). rewrite (map_nth (fun m => if Nat.eqb m p then 1%R else 0%R)). rewrite seq_nth by lia. reflexivity. Qed.
Lemma impulse_bin : forall p k, (p < 256)%nat -> bin_re (impulse_at p) k = cos (turn k p) /\ bin_im (impulse_at p) k = (- sin (turn k p))%R.
Proof.
  intros p k H. unfold bin_re, bin_im. rewrite !(total_single 256 _ p) by (try exact H; intros m K N; rewrite impulse_sample by exact K; rewrite (proj2 (Nat.eqb_neq m p) N); lra).
  rewrite impulse_sample by exact H. rewrite Nat.eqb_refl. split; lra.
Qed.
Lemma impulse_bins : (bin_re (impulse_at 64) 1 = 0 /\ bin_im (impulse_at 64) 1 = -1 /\ bin_re (impulse_at 64) 2 = -1 /\ bin_im (impulse_at 64) 2 = 0)%R /\
  exists y, fft256 exact (impulse_at 64) (fresh 256) (fresh 256) = Ok y /\ nth 3 y 0%R = (-1)%R /\ nth 4 y 0%R = (-1)%R.
Proof.
  destruct (impulse_bin 64 1 ltac:(lia)) as [A B]. destruct (impulse_bin 64 2 ltac:(lia)) as [C D].
  assert (T1 : turn 1 64 = (PI / 2)%R) by (unfold turn; rewrite !INR_IZR_INZ; cbn [Z.of_nat Pos.of_succ_nat Pos.succ]; lra).
  assert (T2 : turn 2 64 = PI) by (unfold turn; rewrite !INR_IZR_INZ; cbn [Z.of_nat Pos.of_succ_nat Pos.succ]; lra).
  rewrite T1 in A, B. rewrite T2 in C, D. rewrite cos_PI2 in A. rewrite sin_PI2 in B. rewrite cos_PI in C. rewrite sin_PI in D.
  split; [repeat split; lra|]. exists (packed (bin_re (impulse_at 64)) (bin_im (impulse_at 64))). split; [apply fft_exact; reflexivity|].
  change (nth 3 (packed (bin_re (impulse_at 64)) (bin_im (impulse_at 64))) 0%R) with (bin_im (impulse_at 64) 1).
  change (nth 4 (packed (bin_re (impulse_at 64)) (bin_im (impulse_at 64))) 0%R) with (bin_re (impulse_at 64) 2). split; lra.
Qed.
