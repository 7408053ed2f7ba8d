(* The residuals of the loud AMBE frame. *)
From Coq Require Import ZArith Reals Lra Lia List Bool.
From Verif Require Import Res F32 TabAmbe2450 MParms SpecEcc SpecFrame SpecImbe SpecAmbe SpecAmp SpecAmbeMachine SpecBound SpecLoud SpecLoud2 PFloat PReal PPredict PResid PIv PCos PCos2 PLoud PLoud2.
From Flocq Require Import Core.Core.
Import ListNotations.
Local Open Scope Z_scope.

Definition isub (x y : iv) : iv :=
  match x, y with
  | Some (a, b), Some (c, d) => if PIv.small (a - d) (b - c) then Some (a - d - 32768, b - c + 32768) else None
  | _, _ => None
  end.
Definition nth_iv (l : list iv) (i : Z) : iv := nth (Z.to_nat i) l None.
Definition coef2_iv (rs : list iv) (h : list f32) (i k : Z) : iv :=
  if k =? 1 then imul (exactly (flit 1 2)) (iadd (nth_iv rs (2 * i - 2)) (nth_iv rs (2 * i - 1)))
  else if k =? 2 then imul (exactly half_root_half) (isub (nth_iv rs (2 * i - 2)) (nth_iv rs (2 * i - 1)))
  else if k <=? 6 then exactly (entry (S754_zero false) h (k - 3)) else Some (0, 0).
Definition rs_iv (v : Z -> f32) : list iv := map (idct_iv ci2 8 (fun m => exactly (v m))) (upto 8).
Definition resid2_iv (j : Z -> Z) (v : Z -> f32) (h : Z -> list f32) : list iv :=
  let rs := rs_iv v in
  flat_map (fun i => let n := j i in let cs := map (coef2_iv rs (h i) i) (upto n) in map (idct_iv ci2 n (fun k => nth_iv cs (k - 1))) (upto n)) (upto 4).
Definition loud_resid : list iv := resid2_iv (block2450 42) (gain_vector2450 loud_bits2450) (higher2450 loud_bits2450).

Lemma isub_in : forall x y i j, inside x i -> inside y j -> inside (fsub x y) (isub i j).
Proof.
  intros x y [[a b]|] [[c d]|] X Y; cbn [isub]; try exact I. destruct (PIv.small (a - d) (b - c)) eqn:S; [|exact I]. cbn [inside] in *.
  destruct X as [FX X], Y as [FY Y]. apply small_R in S. rewrite !minus_IZR in S. unfold unit30 in *.
  assert (B : (Rabs (R_of x - R_of y) <= 128)%R) by (apply Rabs_le; lra).
  destruct (fsub_e x y FX FY) as (A & E); [unfold huge; lra|]. split; [exact A|]. apply (fun h => err_le _ _ 128 h B) in E.
  pose proof u24_small. pose proof tiny_u. apply Rabs_le_inv in E. rewrite minus_IZR, plus_IZR, !minus_IZR. lra.
Qed.
Lemma nth_iv_map : forall (f : Z -> iv) n k, 1 <= k <= n -> nth_iv (map f (upto n)) (k - 1) = f k.
Proof.
  intros f n k H. unfold nth_iv, upto. rewrite map_map. erewrite nth_indep; [erewrite (map_nth (fun i => f (Z.of_nat i)) _ 0%nat)|rewrite map_length, seq_length; lia].
  rewrite seq_nth by lia. f_equal. lia.
Qed.
Section Accurate.
Variable o : oracle.
Hypothesis A : accurate_library2 o.
Let CU : cosine_in_unit o := proj1 (proj1 A).
Let CC : forall x, ff x -> (Rabs (R_of x) <= 32)%R -> (Rabs (R_of (cosf o x) - cos (R_of x)) <= / 1048576)%R := proj1 (proj2 A).
Lemma cos2_in : forall n k j, In n sizes -> 1 <= k <= n -> 1 <= j <= n -> inside (dct_cosine o n k j) (ci2 n k j).
Proof. intros n k j. apply ci2_in; [exact CU|exact CC]. Qed.
Lemma rs_in : forall v j, 1 <= j <= 8 -> inside (idct o 8 v j) (nth_iv (rs_iv v) (j - 1)).
Proof.
  intros v j Hj. unfold rs_iv. rewrite nth_iv_map by exact Hj. apply idct_in; [intros k Hk; apply cos2_in; [left; reflexivity|exact Hk|exact Hj]|]. intros k _. apply exactly_in.
Qed.
Lemma coef2_in : forall v h i k, 1 <= i <= 4 -> inside (ambe_coefficient o v h i k) (coef2_iv (rs_iv v) (h i) i k).
Proof.
  intros v h i k Hi. unfold ambe_coefficient, coef2_iv. cbv zeta. replace (2 * i - 2) with (2 * i - 1 - 1) by ring.
  destruct (k =? 1); [apply imul_in; [apply exactly_in|apply iadd_in; apply rs_in; lia]|]. destruct (k =? 2); [apply imul_in; [apply exactly_in|apply isub_in; apply rs_in; lia]|].
  destruct (k <=? 6); [apply exactly_in|]. split; [split; reflexivity|rewrite R_zero, Rmult_0_l; lra].
Qed.
Lemma resid2_all : forall j v h, (forall i, In i (upto 4) -> In (j i) sizes) -> Forall2 inside (residuals o 4 j (ambe_coefficient o v h)) (resid2_iv j v h).
Proof.
  intros j v h SZ. unfold residuals, resid2_iv. cbv zeta. generalize SZ (upto_bound 4). generalize (upto 4). intros l. induction l as [|i l IH]; intros S B; cbn [flat_map]; [constructor|].
  apply Forall2_app; [|apply IH; intros q Q; [apply S|apply B]; right; exact Q].
  assert (G : forall js, (forall q, In q js -> 1 <= q <= j i) ->
    Forall2 inside (map (idct o (j i) (ambe_coefficient o v h i)) js) (map (idct_iv ci2 (j i) (fun k => nth_iv (map (coef2_iv (rs_iv v) (h i) i) (upto (j i))) (k - 1))) js)); [|apply G, upto_bound].
  intros js. induction js as [|q js IJ]; intros BJ; cbn [map]; constructor.
  - apply idct_in; [intros k Hk; apply cos2_in; [apply S; left; reflexivity|exact Hk|apply BJ; left; reflexivity]|].
    intros k Hk. rewrite nth_iv_map by exact Hk. apply coef2_in, B. left. reflexivity.
  - apply IJ. intros p P. apply BJ. right. exact P.
Qed.
End Accurate.
Lemma size2_ok : forall i, In i (upto 4) -> In (block2450 42 i) sizes.
Proof. intros i H. cbn in H. repeat (destruct H as [<-|H]; [vm_compute; auto|]). destruct H. Qed.
(* in thousandths: the first residual is at least 7.092, their sum at most -14.09 *)
Definition top (i : iv) : Z := match i with Some (_, b) => b | None => 0 end.
Definition is_some (i : iv) : bool := match i with Some _ => true | None => false end.
Definition fine_list (l : list iv) : bool :=
  forallb is_some l && Nat.eqb (length l) 42 && match nth_iv l 0 with Some (a, _) => 7092 * 2 ^ 30 <=? a * 1000 | None => false end &&
  (fold_right (fun i s => top i + s) 0 l * 1000 <=? -14090 * 2 ^ 30).
Lemma loud_fine_ok : fine_list loud_resid = true.
Proof. vm_compute. reflexivity. Qed.
Lemma rsum_shift : forall n f, rsum (S n) f = (f 1%Z + rsum n (fun k => f (k + 1)%Z))%R.
Proof.
  induction n as [|n IH]; intros f; [cbn [rsum]; change (Z.of_nat 1) with 1%Z; ring|]. change (rsum (S (S n)) f) with (rsum (S n) f + f (Z.of_nat (S (S n))))%R. rewrite IH.
  change (rsum (S n) (fun k => f (k + 1)%Z)) with (rsum n (fun k => f (k + 1)%Z) + f (Z.of_nat (S n) + 1)%Z)%R. replace (Z.of_nat (S (S n))) with (Z.of_nat (S n) + 1)%Z by lia. ring.
Qed.
Lemma tops : forall xs is, Forall2 inside xs is -> forallb is_some is = true ->
  (rsum (length xs) (fun l => R_of (nth (Z.to_nat (l - 1)) xs (S754_zero false))) * unit30 <= IZR (fold_right (fun i s => top i + s)%Z 0%Z is))%R.
Proof.
  intros xs is F. induction F as [|x i xs is X F IH]; intros S; cbn [forallb] in S; [cbn [length rsum fold_right]; lra|]. apply andb_true_iff in S as [S1 S2]. specialize (IH S2).
  cbn [length fold_right]. rewrite rsum_shift, plus_IZR. assert (E : rsum (length xs) (fun k => R_of (nth (Z.to_nat (k + 1 - 1)) (x :: xs) (S754_zero false))) = rsum (length xs) (fun l => R_of (nth (Z.to_nat (l - 1)) xs (S754_zero false)))).
  { apply PLoud2.rsum_ext. intros k Hk. replace (Z.to_nat (k + 1 - 1)) with (S (Z.to_nat (k - 1))) by lia. reflexivity. }
  rewrite E. change (nth (Z.to_nat (1 - 1)) (x :: xs) (S754_zero false)) with x. destruct i as [[a b]|]; [|discriminate]. destruct X as [_ X]. cbn [top]. lra.
Qed.
Lemma fine_bounds : forall xs is, Forall2 inside xs is -> fine_list is = true -> let T := fun l => R_of (nth (Z.to_nat (l - 1)) xs (S754_zero false)) in (7.092 <= T 1%Z /\ rsum 42 T <= -14.09)%R.
Proof.
  intros xs is F G T. unfold fine_list in G.
  apply andb_true_iff in G as [G G4]. apply andb_true_iff in G as [G G3]. apply andb_true_iff in G as [G1 G2]. apply Nat.eqb_eq in G2. apply Z.leb_le in G4.
  pose proof (tops _ _ F G1) as S. fold T in S. assert (LX : length xs = 42%nat) by (rewrite <- G2; clear - F; induction F; cbn [length]; congruence).
  rewrite LX in S. set (z := fold_right _ _ _) in *.
  assert (T1 : (IZR 7092 * 1073741824 <= T 1%Z * unit30 * 1000)%R).
  { unfold T. change (Z.to_nat (1 - 1)) with 0%nat. clear S T G1 G2 G4 z. unfold nth_iv in G3. change (Z.to_nat 0) with 0%nat in G3.
    destruct F as [|x i xs is X F]; [discriminate LX|]. cbn [nth] in *. destruct i as [[a b]|]; [|discriminate G3]. apply Z.leb_le in G3. destruct X as [_ X]. apply IZR_le in G3. rewrite !mult_IZR in G3. change (IZR (2 ^ 30)) with 1073741824%R in G3. lra. }
  apply IZR_le in G4. rewrite !mult_IZR in G4. change (IZR (2 ^ 30)) with 1073741824%R in G4. clearbody z T. unfold unit30 in *. split; lra.
Qed.
Lemma loud_residuals : forall o, accurate_library2 o -> let T := fun l => R_of (ambe_residual o (block2450 42) (gain_vector2450 loud_bits2450) (higher2450 loud_bits2450) l) in
  (7.092 <= T 1%Z /\ rsum 42 T <= -14.09)%R.
Proof. intros o A. exact (fine_bounds _ _ (resid2_all o A (block2450 42) (gain_vector2450 loud_bits2450) (higher2450 loud_bits2450) size2_ok) loud_fine_ok). Qed.
