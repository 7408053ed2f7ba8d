(* Complex numbers as pairs of reals, roots of unity and finite sums. *)
From Coq Require Import ZArith List Bool Reals Lia Lra.
Local Open Scope R_scope.

Definition C := (R * R)%type.
Definition cadd (a b : C) : C := (fst a + fst b, snd a + snd b).
Definition csub (a b : C) : C := (fst a - fst b, snd a - snd b).
Definition cmul (a b : C) : C := (fst a * fst b - snd a * snd b, fst a * snd b + snd a * fst b).
Definition copp (a : C) : C := (- fst a, - snd a).
Definition conj (a : C) : C := (fst a, - snd a).
Definition c0 : C := (0, 0).
Definition c1 : C := (1, 0).
Definition ci : C := (0, 1).
Declare Scope C_scope.
Delimit Scope C_scope with C.
Infix "+" := cadd : C_scope.
Infix "-" := csub : C_scope.
Infix "*" := cmul : C_scope.
Notation "- x" := (copp x) : C_scope.
Lemma c_eq : forall a b : C, fst a = fst b -> snd a = snd b -> a = b.
Proof. intros [a b] [c d]. cbn. now intros -> ->. Qed.
Ltac cring := intros; apply c_eq; unfold cadd, csub, cmul, copp, conj, c0, c1, ci; cbn [fst snd]; ring.
Lemma C_ring : ring_theory c0 c1 cadd cmul csub copp eq.
Proof. constructor; cring. Qed.
Add Ring C_ring_inst : C_ring.
Lemma conj_add : forall a b, conj (a + b)%C = (conj a + conj b)%C. Proof. cring. Qed.
Lemma conj_sub : forall a b, conj (a - b)%C = (conj a - conj b)%C. Proof. cring. Qed.
Lemma conj_mul : forall a b, conj (a * b)%C = (conj a * conj b)%C. Proof. cring. Qed.
Lemma conj_conj : forall a, conj (conj a) = a. Proof. cring. Qed.
Lemma ci_sq : (ci * ci)%C = (- c1)%C. Proof. cring. Qed.

(* ---- sums ---- *)
Fixpoint csum (n : nat) (f : nat -> C) : C := match n with O => c0 | S n => (csum n f + f n)%C end.
Lemma csum_ext : forall n f g, (forall k, (k < n)%nat -> f k = g k) -> csum n f = csum n g.
Proof. induction n as [|n IH]; intros f g H; cbn [csum]; [reflexivity|]. rewrite (IH f g), (H n); auto. Qed.
Lemma csum_add : forall n f g, csum n (fun k => f k + g k)%C = (csum n f + csum n g)%C.
Proof. induction n as [|n IH]; intros f g; cbn [csum]; [ring|]. rewrite IH. ring. Qed.
Lemma csum_mul : forall n a f, csum n (fun k => a * f k)%C = (a * csum n f)%C.
Proof. induction n as [|n IH]; intros a f; cbn [csum]; [ring|]. rewrite IH. ring. Qed.
Lemma csum_zero : forall n, csum n (fun _ => c0) = c0.
Proof. induction n as [|n IH]; cbn [csum]; [reflexivity|]. rewrite IH. ring. Qed.
Lemma csum_swap : forall n m f, csum n (fun i => csum m (fun j => f i j)) = csum m (fun j => csum n (fun i => f i j)).
Proof.
  induction n as [|n IH]; intros m f; cbn [csum]; [now rewrite csum_zero|]. rewrite IH, <- csum_add. reflexivity.
Qed.
Lemma csum_four : forall n f, csum (4 * n) f = csum n (fun k => f (4 * k)%nat + f (4 * k + 1)%nat + f (4 * k + 2)%nat + f (4 * k + 3)%nat)%C.
Proof.
  induction n as [|n IH]; intros f; [reflexivity|]. replace (4 * S n)%nat with (S (S (S (S (4 * n))))) by lia. cbn [csum]. rewrite IH.
  replace (S (S (S (4 * n)))) with (4 * n + 3)%nat by lia. replace (S (S (4 * n))) with (4 * n + 2)%nat by lia. replace (S (4 * n)) with (4 * n + 1)%nat by lia. ring.
Qed.
Lemma csum_app : forall a b f, csum (a + b) f = (csum a f + csum b (fun k => f (a + k)%nat))%C.
Proof. intros a. induction b as [|b IH]; intros f; [rewrite Nat.add_0_r; cbn [csum]; ring|]. rewrite Nat.add_succ_r. cbn [csum]. rewrite IH. ring. Qed.
Lemma csum_blocks : forall n f, csum (4 * n) f = csum n (fun k => f k + f (n + k)%nat + f (2 * n + k)%nat + f (3 * n + k)%nat)%C.
Proof.
  intros n f. replace (4 * n)%nat with (n + (n + (n + n)))%nat by lia. rewrite !csum_app, !csum_add.
  replace (csum n (fun k => f (n + (n + k))%nat)) with (csum n (fun k => f (2 * n + k)%nat)) by (apply csum_ext; intros; f_equal; lia).
  replace (csum n (fun k => f (n + (n + (n + k)))%nat)) with (csum n (fun k => f (3 * n + k)%nat)) by (apply csum_ext; intros; f_equal; lia). ring.
Qed.
Lemma csum_conj : forall n f, conj (csum n f) = csum n (fun k => conj (f k)).
Proof. induction n as [|n IH]; intros f; cbn [csum]; [cring|]. now rewrite conj_add, IH. Qed.

(* ---- roots of unity ---- *)
Definition cis (t : R) : C := (cos t, sin t).
Lemma cis_add : forall a b, cis (a + b) = (cis a * cis b)%C.
Proof. intros a b. unfold cis, cmul. cbn [fst snd]. rewrite cos_plus, sin_plus. f_equal; ring. Qed.
Lemma cis_opp : forall a, cis (- a) = conj (cis a).
Proof. intros a. unfold cis, conj. cbn [fst snd]. now rewrite cos_neg, sin_neg. Qed.
Definition root (n k : Z) : C := cis (2 * PI * IZR k / IZR n).
Lemma root_add : forall n a b, root n (a + b) = (root n a * root n b)%C.
Proof. intros n a b. unfold root. rewrite <- cis_add. f_equal. rewrite plus_IZR. unfold Rdiv. ring. Qed.
Lemma root_opp : forall n a, root n (- a) = conj (root n a).
Proof. intros n a. unfold root. rewrite <- cis_opp. f_equal. rewrite opp_IZR. unfold Rdiv. ring. Qed.
Lemma root_0 : forall n, root n 0 = c1.
Proof. intros n. unfold root. replace (2 * PI * 0 / IZR n) with 0 by (unfold Rdiv; ring). unfold cis. now rewrite cos_0, sin_0. Qed.
Lemma root_full : forall n, n <> 0%Z -> root n n = c1.
Proof.
  intros n Hn. unfold root. assert (IZR n <> 0) by (now apply not_0_IZR). replace (2 * PI * IZR n / IZR n) with (2 * PI) by (now field). unfold cis. now rewrite cos_2PI, sin_2PI.
Qed.
Lemma root_scale : forall n m k, n <> 0%Z -> m <> 0%Z -> root (n * m) (k * m) = root n k.
Proof.
  intros n m k Hn Hm. unfold root. f_equal. rewrite !mult_IZR. assert (IZR n <> 0) by (now apply not_0_IZR). assert (IZR m <> 0) by (now apply not_0_IZR). field. split; assumption.
Qed.
Lemma root_mult_nat : forall n k, n <> 0%Z -> root n (n * Z.of_nat k) = c1.
Proof.
  intros n k Hn. induction k as [|k IH]; [rewrite Z.mul_0_r; apply root_0|]. replace (n * Z.of_nat (S k))%Z with (n + n * Z.of_nat k)%Z by lia. rewrite root_add, IH, root_full by exact Hn. ring.
Qed.
Lemma root_mult : forall n k, n <> 0%Z -> root n (n * k) = c1.
Proof.
  intros n k Hn. destruct (Z_le_gt_dec 0 k) as [P|N].
  - rewrite <- (Z2Nat.id k P). now apply root_mult_nat.
  - replace (n * k)%Z with (- (n * Z.of_nat (Z.to_nat (- k))))%Z by (rewrite Z2Nat.id by lia; ring). rewrite root_opp, root_mult_nat by exact Hn. unfold conj, c1. cbn [fst snd]. f_equal. ring.
Qed.
Lemma root_4_1 : root 4 1 = ci.
Proof. unfold root, cis, ci. replace (2 * PI * 1 / 4) with (PI / 2) by field. now rewrite cos_PI2, sin_PI2. Qed.
Lemma root_4_2 : root 4 2 = (- c1)%C.
Proof. change 2%Z with (1 + 1)%Z. rewrite root_add, root_4_1. apply ci_sq. Qed.
Lemma root_4_3 : root 4 3 = (- ci)%C.
Proof. change 3%Z with (2 + 1)%Z. rewrite root_add, root_4_1, root_4_2. ring. Qed.
Lemma root_8_1 : root 8 1 = (/ sqrt 2, / sqrt 2).
Proof.
  unfold root, cis. replace (2 * PI * 1 / 8) with (PI / 4) by field. rewrite cos_PI4, sin_PI4. f_equal; unfold Rdiv; ring.
Qed.

(* ---- orthogonality ---- *)
Lemma geometric : forall n (z : C), ((z - c1) * csum n (fun k => Nat.iter k (cmul z) c1))%C = (Nat.iter n (cmul z) c1 - c1)%C.
Proof.
  induction n as [|n IH]; intros z; cbn [csum]; [change (Nat.iter 0 (cmul z) c1) with c1; ring|].
  replace ((z - c1) * (csum n (fun k => Nat.iter k (cmul z) c1) + Nat.iter n (cmul z) c1))%C with ((z - c1) * csum n (fun k => Nat.iter k (cmul z) c1) + (z - c1) * Nat.iter n (cmul z) c1)%C by ring.
  rewrite IH. change (Nat.iter (S n) (cmul z) c1) with (z * Nat.iter n (cmul z) c1)%C. ring.
Qed.
Lemma root_iter : forall n d k, Nat.iter k (cmul (root n d)) c1 = root n (d * Z.of_nat k).
Proof.
  intros n d. induction k as [|k IH]; [rewrite Z.mul_0_r, root_0; reflexivity|]. change (Nat.iter (S k) (cmul (root n d)) c1) with (root n d * Nat.iter k (cmul (root n d)) c1)%C. rewrite IH, <- root_add. f_equal. lia.
Qed.
Lemma root_not_1 : forall n d, (0 < d < n)%Z -> root n d <> c1.
Proof.
  intros n d H E. unfold root, cis, c1 in E. injection E as E1 E2. set (t := 2 * PI * IZR d / IZR n) in *.
  assert (HN : 0 < IZR n) by (apply IZR_lt; lia). assert (HD : 0 < IZR d < IZR n) by (split; apply IZR_lt; lia). pose proof PI_RGT_0 as P.
  assert (T : 0 < t / 2 < PI).
  { unfold t. replace (2 * PI * IZR d / IZR n / 2) with (PI * (IZR d / IZR n)) by (field; lra). assert (0 < IZR d / IZR n < 1).
    { split; [apply Rdiv_lt_0_compat; lra|]. apply (Rmult_lt_reg_r (IZR n)); [exact HN|]. unfold Rdiv. rewrite Rmult_assoc, Rinv_l by lra. lra. }
    split; [apply Rmult_lt_0_compat; lra|]. rewrite <- (Rmult_1_r PI) at 2. apply Rmult_lt_compat_l; lra. }
  pose proof (sin_gt_0 (t / 2) (proj1 T) (proj2 T)) as S. replace t with (2 * (t / 2)) in E1 by field. rewrite cos_2a_sin in E1.
  assert (0 < 2 * sin (t / 2) * sin (t / 2)) by (apply Rmult_lt_0_compat; lra). lra.
Qed.
Lemma c_integral : forall a b : C, (a * b)%C = c0 -> a <> c0 -> b = c0.
Proof.
  intros [a b] [c d] E N. unfold cmul, c0 in *. cbn [fst snd] in E. injection E as E1 E2.
  assert (Q : 0 < a * a + b * b). { destruct (Req_dec a 0) as [A|A]; [destruct (Req_dec b 0) as [B|B]; [subst; contradiction|]|]; [pose proof (Rsqr_pos_lt b B) as P; unfold Rsqr in P; pose proof (Rle_0_sqr a) as Q; unfold Rsqr in Q; lra|pose proof (Rsqr_pos_lt a A) as P; unfold Rsqr in P; pose proof (Rle_0_sqr b) as Q; unfold Rsqr in Q; lra]. }
  assert (C1 : (a * a + b * b) * c = a * (a * c - b * d) + b * (a * d + b * c)) by ring. assert (D1 : (a * a + b * b) * d = a * (a * d + b * c) - b * (a * c - b * d)) by ring.
  rewrite E1, E2 in C1, D1. f_equal; apply (Rmult_eq_reg_l (a * a + b * b)); lra.
Qed.
Lemma root_sum : forall n d, (0 < d < Z.of_nat n)%Z -> csum n (fun k => root (Z.of_nat n) (d * Z.of_nat k)) = c0.
Proof.
  intros n d H. apply (c_integral (root (Z.of_nat n) d - c1)%C).
  - rewrite (csum_ext n _ (fun k => Nat.iter k (cmul (root (Z.of_nat n) d)) c1)) by (intros; symmetry; apply root_iter). rewrite geometric, root_iter. rewrite Z.mul_comm, root_mult by lia. ring.
  - intros E. apply (root_not_1 (Z.of_nat n) d H). apply c_eq; [pose proof (f_equal fst E) as F|pose proof (f_equal snd E) as F]; unfold csub, c0 in F; cbn [fst snd] in F; unfold c1 in *; cbn [fst snd] in *; lra.
Qed.
Lemma root_period : forall n a k, n <> 0%Z -> root n (a + n * k) = root n a.
Proof. intros n a k Hn. rewrite root_add, root_mult by exact Hn. ring. Qed.
