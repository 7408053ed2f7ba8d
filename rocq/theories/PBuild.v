(* The scalar, SSE2 and NEON builds approximate the same exact values. *)
From Coq Require Import ZArith List Bool Lia Reals Lra Permutation.
From Verif Require Import Res F32 MParms MSse MAdaptive MUnvoiced MSynth SpecAmp SpecSynth SpecSum SpecEnh2 SpecBuild PSum PBase PRun PArr PFloat PReal PSumErr PMoment PPower PEnh3.
From Flocq Require Import Core.Core.
Import ListNotations.
Local Open Scope R_scope.

(* the terms xs together approximate r; m is the sum of the sizes *)
Definition approx (xs : list f32) (r m : R) : Prop :=
  Forall ff xs /\ Rabs (rtot xs - r) <= 3 * u24 * m + INR (length xs) * (4 * tiny) /\ rabs xs <= 1.000001 * m + INR (length xs) * (4 * tiny) /\ 0 <= m.
Lemma approx_nil : approx [] 0 0.
Proof. split; [constructor|]. cbn [rtot rabs fold_right length INR]. rewrite Rminus_0_r, Rabs_R0. lra. Qed.
Lemma approx_app : forall xs r m ys s k, approx xs r m -> approx ys s k -> approx (xs ++ ys) (r + s) (m + k).
Proof.
  intros xs r m ys s k (F1 & E1 & A1 & P1) (F2 & E2 & A2 & P2). split; [apply Forall_app; auto|]. rewrite rtot_app, rabs_app, app_length, plus_INR. split; [|lra].
  replace (rtot xs + rtot ys - (r + s)) with ((rtot xs - r) + (rtot ys - s)) by ring. eapply Rle_trans; [apply Rabs_triang|]. lra.
Qed.
Lemma approx_perm : forall xs ys r m, Permutation xs ys -> approx xs r m -> approx ys r m.
Proof.
  intros xs ys r m P (F & E & A & M). split; [eapply Permutation_Forall; eauto|]. rewrite <- (rtot_perm _ _ P), <- (rabs_perm _ _ P), <- (Permutation_length P). auto.
Qed.
Lemma approx_map : forall (f : Z -> f32) (g h : Z -> R) ks, (forall k, In k ks -> approx [f k] (g k) (h k)) -> approx (map f ks) (rsum g ks) (rsum h ks).
Proof.
  intros f g h ks. unfold rsum. induction ks as [|k ks IH]; intros H; [apply approx_nil|]. cbn [map fold_right]. apply (approx_app [f k]); [apply H; now left|apply IH; intros i Hi; apply H; now right].
Qed.
Lemma approx_one : forall x r m, ff x -> 0 <= m -> Rabs r <= m -> Rabs (R_of x - r) <= 3 * u24 * m + 4 * tiny -> approx [x] r m.
Proof.
  intros x r m F M B E. split; [auto|]. cbn [rtot rabs fold_right length INR]. rewrite !Rplus_0_r. assert (U : 0 < u24 <= 6e-8) by (unfold u24; lra).
  assert (3 * u24 * m <= 0.000001 * m) by (apply Rmult_le_compat_r; lra). split; [lra|]. split; [|exact M].
  replace (R_of x) with ((R_of x - r) + r) by ring. eapply Rle_trans; [apply Rabs_triang|]. lra.
Qed.
Lemma approx_sum : forall xs r m s n, approx xs r m -> summed xs s n -> (n <= 300)%nat -> (length xs <= 300)%nat -> m <= 9e34 -> agrees s r m.
Proof.
  intros xs r m s n (F & E & A & P) S N LN M. assert (U : 0 < u24 <= 6e-8) by (unfold u24; lra). pose proof tiny_pos as T0. pose proof tiny_40 as T1.
  assert (LR : 0 <= INR (length xs) <= 300). { split; [apply pos_INR|]. apply le_INR in LN. rewrite (INR_IZR_INZ 300) in LN. exact LN. }
  assert (NR : 0 <= INR n <= 300). { split; [apply pos_INR|]. apply le_INR in N. rewrite (INR_IZR_INZ 300) in N. exact N. }
  assert (LT : INR (length xs) * (4 * tiny) <= 1.2e-37) by (assert (INR (length xs) * (4 * tiny) <= 300 * (4 * tiny)) by (apply Rmult_le_compat_r; lra); lra).
  destruct (summed_error xs s n S N F) as [FS ES]; [lra|]. split; [exact FS|].
  assert (K : INR n * (1.01 * u24 * rabs xs + 2 * tiny) <= 300 * (1.01 * u24 * rabs xs + 2 * tiny)).
  { apply Rmult_le_compat_r; [|lra]. pose proof (rabs_pos xs). assert (0 <= u24 * rabs xs) by (apply Rmult_le_pos; lra). lra. }
  assert (K2 : u24 * rabs xs <= 6e-8 * (1.000001 * m + 1.2e-37)). { apply Rmult_le_compat; try lra. apply rabs_pos. }
  assert (K3 : 3 * u24 * m <= 1.8e-7 * m) by (apply Rmult_le_compat_r; lra).
  replace (R_of s - r) with ((R_of s - rtot xs) + (rtot xs - r)) by ring. eapply Rle_trans; [apply Rabs_triang|]. lra.
Qed.

(* ---- terms ---- *)
Lemma square_approx : forall y, ff y -> Rabs (R_of y) <= 1e16 -> approx [fmul y y] (R_of y * R_of y) (R_of y * R_of y).
Proof.
  intros y F B. apply Rabs_le_inv in B. assert (Q : 0 <= R_of y * R_of y <= 1e32) by (split; nra). destruct (fmul_e y y F F) as [A E]; [rewrite Rabs_pos_eq by lra; unfold huge; lra|].
  rewrite (Rabs_pos_eq (R_of y * R_of y)) in E by lra. pose proof tiny_pos. assert (0 <= u24 * (R_of y * R_of y)) by (apply Rmult_le_pos; [unfold u24; lra|lra]).
  apply approx_one; auto; try lra. rewrite Rabs_pos_eq; lra.
Qed.
Lemma weighted_approx : forall y c, ff y -> ff c -> Rabs (R_of y) <= 1e16 -> Rabs (R_of c) <= 1.2 ->
  approx [fmul (fmul y y) c] (R_of y * R_of y * R_of c) (1.2 * (R_of y * R_of y)).
Proof.
  intros y c F FC B BC. apply Rabs_le_inv in B. assert (Q : 0 <= R_of y * R_of y <= 1e32) by (split; nra). destruct (fmul_e y y F F) as [A E]; [rewrite Rabs_pos_eq by lra; unfold huge; lra|].
  set (q := R_of y * R_of y) in *. set (s := R_of (fmul y y)) in *. rewrite (Rabs_pos_eq q) in E by lra. pose proof tiny_pos as T0. pose proof tiny_40 as T1. assert (U : 0 < u24 <= 6e-8) by (unfold u24; lra).
  set (w := u24 * q) in *. assert (W : 0 <= w <= 6e-8 * q) by (unfold w; split; [apply Rmult_le_pos; lra|apply Rmult_le_compat_r; lra]).
  assert (S1 : Rabs s <= q + w + tiny). { replace s with ((s - q) + q) by ring. eapply Rle_trans; [apply Rabs_triang|]. rewrite (Rabs_pos_eq q) by lra. lra. }
  assert (SC : Rabs (s * R_of c) <= (q + w + tiny) * 1.2) by (rewrite Rabs_mult; apply Rmult_le_compat; auto using Rabs_pos).
  destruct (fmul_e (fmul y y) c A FC) as [A2 E2]; [fold s; unfold huge; lra|]. fold s in E2. apply approx_one; auto; try lra.
  - rewrite Rabs_mult, (Rabs_pos_eq q) by lra. rewrite (Rmult_comm 1.2). apply Rmult_le_compat_l; lra.
  - replace (R_of (fmul (fmul y y) c) - q * R_of c) with ((R_of (fmul (fmul y y) c) - s * R_of c) + (s - q) * R_of c) by ring. eapply Rle_trans; [apply Rabs_triang|].
    assert (D1 : Rabs ((s - q) * R_of c) <= (w + tiny) * 1.2) by (rewrite Rabs_mult; apply Rmult_le_compat; auto using Rabs_pos).
    assert (D2 : u24 * Rabs (s * R_of c) <= 1.2 * w + 6e-8 * (1.2 * w) + 6e-8 * (1.2 * tiny)).
    { eapply Rle_trans; [apply Rmult_le_compat_l; [lra|exact SC]|]. replace (u24 * ((q + w + tiny) * 1.2)) with (1.2 * w + u24 * (1.2 * w) + u24 * (1.2 * tiny)) by (unfold w; ring).
      assert (u24 * (1.2 * w) <= 6e-8 * (1.2 * w)) by (apply Rmult_le_compat_r; lra). assert (u24 * (1.2 * tiny) <= 6e-8 * (1.2 * tiny)) by (apply Rmult_le_compat_r; lra). lra. }
    replace (3 * u24 * (1.2 * q)) with (3.6 * w) by (unfold w; lra). lra.
Qed.
Lemma pair_approx : forall y z, ff y -> ff z -> Rabs (R_of y) <= 1e16 -> Rabs (R_of z) <= 1e16 ->
  approx [fadd (fmul y y) (fmul z z)] (R_of y * R_of y + R_of z * R_of z) (R_of y * R_of y + R_of z * R_of z).
Proof.
  intros y z FY FZ BY BZ. apply Rabs_le_inv in BY, BZ. assert (Q : 0 <= R_of y * R_of y <= 1e32) by (split; nra). assert (Q' : 0 <= R_of z * R_of z <= 1e32) by (split; nra).
  destruct (fmul_e y y FY FY) as [A E]; [rewrite Rabs_pos_eq by lra; unfold huge; lra|]. destruct (fmul_e z z FZ FZ) as [A' E']; [rewrite Rabs_pos_eq by lra; unfold huge; lra|].
  set (q := R_of y * R_of y) in *. set (q' := R_of z * R_of z) in *. rewrite (Rabs_pos_eq q) in E by lra. rewrite (Rabs_pos_eq q') in E' by lra.
  pose proof tiny_pos as T0. pose proof tiny_40 as T1. assert (U : 0 < u24 <= 6e-8) by (unfold u24; lra).
  set (w := u24 * q) in *. assert (W : 0 <= w <= 6e-8 * q) by (unfold w; split; [apply Rmult_le_pos; lra|apply Rmult_le_compat_r; lra]).
  set (w' := u24 * q') in *. assert (W' : 0 <= w' <= 6e-8 * q') by (unfold w'; split; [apply Rmult_le_pos; lra|apply Rmult_le_compat_r; lra]).
  apply Rabs_le_inv in E, E'. set (s := R_of (fmul y y)) in *. set (s' := R_of (fmul z z)) in *.
  assert (S1 : Rabs (s + s') <= q + q' + w + w' + 2 * tiny) by (apply Rabs_le; lra).
  destruct (fadd_e _ _ A A') as [A2 E2]; [fold s s'; unfold huge; lra|]. fold s s' in E2. apply approx_one; auto; try lra; [rewrite Rabs_pos_eq; lra|].
  assert (D2 : u24 * Rabs (s + s') <= w + w' + 6e-8 * (w + w' + 2 * tiny)).
  { eapply Rle_trans; [apply Rmult_le_compat_l; [lra|exact S1]|]. replace (u24 * (q + q' + w + w' + 2 * tiny)) with (w + w' + u24 * (w + w' + 2 * tiny)) by (unfold w, w'; ring).
    assert (u24 * (w + w' + 2 * tiny) <= 6e-8 * (w + w' + 2 * tiny)) by (apply Rmult_le_compat_r; lra). lra. }
  replace (3 * u24 * (q + q')) with (3 * w + 3 * w') by (unfold w, w'; ring). apply Rabs_le_inv in E2. apply Rabs_le. lra.
Qed.

(* ---- the sums of enhancement ---- *)
Lemma add_all_approx : forall simd xs r m, approx xs r m -> (length xs <= 290)%nat -> m <= 9e34 -> agrees (add_all simd xs) r m.
Proof.
  intros simd xs r m A L M. destruct (add_all_summed simd xs) as (ys & n & P & S & N). apply (approx_sum ys r m _ n); auto; [eapply approx_perm; eauto|lia|]. rewrite <- (Permutation_length P). lia.
Qed.
Lemma energy_size : forall L Ml, (0 <= L <= 56)%Z -> amplitudes_under 1e16 L Ml -> 0 <= exact_energy L Ml <= 5.6e33.
Proof.
  intros L Ml HL H. unfold exact_energy. assert (K : forall l, In l (upto L) -> 0 <= R_of (cell zero Ml l) * R_of (cell zero Ml l) <= 1e32).
  { intros l Hl. apply in_upto in Hl. destruct (H l Hl) as [_ B]. apply Rabs_le_inv in B. split; nra. }
  split; [apply rsum_pos; intros l Hl; apply K, Hl|]. eapply Rle_trans; [apply rsum_le; intros l Hl; apply K, Hl|]. rewrite upto_count by lia. assert (IZR L <= 56) by (apply IZR_le; lia). lra.
Qed.
Lemma energy_both : forall simd L Ml, (0 <= L <= 56)%Z -> length Ml = 57%nat -> amplitudes_under 1e16 L Ml ->
  exists e, enh_sum simd L Ml = Ok e /\ agrees e (exact_energy L Ml) (exact_energy L Ml).
Proof.
  intros simd L Ml HL HM H. rewrite (sum_value simd L Ml (cell zero Ml)) by (lia || (intros l Hl; apply PPower.rd_at; lia)).
  eexists. split; [reflexivity|]. rewrite PEnh2.zfrom_upto. pose proof (energy_size L Ml HL H). apply add_all_approx; [|rewrite map_length, PAmp.upto_length; lia|lra].
  apply (approx_map (fun l => fmul (cell zero Ml l) (cell zero Ml l))). intros l Hl. apply in_upto in Hl. destruct (H l Hl). now apply square_approx.
Qed.
Lemma moments_both : forall simd L Ml tab (c : Z -> f32), (0 <= L <= 56)%Z -> length Ml = 57%nat -> amplitudes_under 1e16 L Ml ->
  (forall l, (1 <= l <= L)%Z -> rdi tab l = Ok (c l) /\ ff (c l) /\ Rabs (R_of (c l)) <= 1.2) ->
  exists r0 r1, enh_energies simd L Ml tab = Ok (r0, r1) /\ agrees r0 (exact_energy L Ml) (exact_energy L Ml) /\
    agrees r1 (exact_weighted L Ml (fun l => R_of (c l))) (1.2 * exact_energy L Ml).
Proof.
  intros simd L Ml tab c HL HM H HC. rewrite (energies_value simd L Ml tab (cell zero Ml) c) by (lia || (intros l Hl; split; [apply PPower.rd_at; lia|apply HC, Hl])).
  eexists. eexists. split; [reflexivity|]. rewrite PEnh2.zfrom_upto. pose proof (energy_size L Ml HL H). split; apply add_all_approx; try (rewrite map_length, PAmp.upto_length; lia); try lra.
  - apply (approx_map (fun l => fmul (cell zero Ml l) (cell zero Ml l))). intros l Hl. apply in_upto in Hl. destruct (H l Hl). now apply square_approx.
  - unfold exact_energy. rewrite <- rsum_scale. apply (approx_map (fun l => fmul (fmul (cell zero Ml l) (cell zero Ml l)) (c l))). intros l Hl. apply in_upto in Hl. destruct (H l Hl). destruct (HC l Hl) as (_ & F & B). now apply weighted_approx.
Qed.

(* ---- the power of a band ---- *)
Lemma ints_cons : forall a b, (a < b)%Z -> ints a b = a :: ints (a + 1) b.
Proof.
  intros a b H. unfold ints. replace (Z.to_nat (b - a)) with (S (Z.to_nat (b - (a + 1)))) by lia. cbn [seq map]. f_equal; [lia|]. rewrite <- seq_shift, map_map. apply map_ext. intros k. lia.
Qed.
Lemma ints_nil : forall a b, (b <= a)%Z -> ints a b = [].
Proof. intros a b H. unfold ints. replace (Z.to_nat (b - a)) with 0%nat by lia. reflexivity. Qed.
Lemma ints_app : forall a b c, (a <= b <= c)%Z -> ints a c = ints a b ++ ints b c.
Proof.
  intros a b c H. remember (Z.to_nat (b - a)) as n eqn:E. revert a H E. induction n as [|n IH]; intros a H E.
  - replace a with b by lia. now rewrite (ints_nil b b) by lia.
  - rewrite (ints_cons a c), (ints_cons a b) by lia. cbn [app]. f_equal. apply IH; lia.
Qed.
Lemma ints_length : forall a b, length (ints a b) = Z.to_nat (b - a).
Proof. intros. unfold ints. now rewrite map_length, seq_length. Qed.
Lemma in_ints : forall k a b, In k (ints a b) <-> (a <= k < b)%Z.
Proof.
  intros k a b. unfold ints. rewrite in_map_iff. split.
  - intros (i & <- & Hi). apply in_seq in Hi. lia.
  - intros H. exists (Z.to_nat (k - a)). split; [lia|]. apply in_seq. lia.
Qed.
Lemma bin_powers_ints : forall x a b, bin_powers x a b = map (bin_power x) (ints a b).
Proof. intros. unfold bin_powers, ints. now rewrite map_map. Qed.
Section Band.
Context (x : list f32) (X : Forall (fun y => ff y /\ Rabs (R_of y) <= 1e15) x).
Lemma cell_ok : forall i, ff (cell zero x i) /\ Rabs (R_of (cell zero x i)) <= 1e16.
Proof.
  intros i. unfold cell. destruct (Nat.lt_ge_cases (Z.to_nat i) (length x)) as [H|H].
  - rewrite Forall_forall in X. destruct (X (nth (Z.to_nat i) x zero)) as [F B]; [apply nth_In; exact H|]. split; [exact F|lra].
  - rewrite nth_overflow by exact H. split; [split; reflexivity|]. change (R_of zero) with 0. rewrite Rabs_R0. lra.
Qed.
Lemma cell_square : forall i, 0 <= R_of (cell zero x i) * R_of (cell zero x i) <= 1e32.
Proof. intros i. destruct (cell_ok i) as [_ B]. apply Rabs_le_inv in B. split; nra. Qed.
Lemma bin_size : forall k, 0 <= exact_bin x k <= 2e32.
Proof. intros k. unfold exact_bin. pose proof (cell_square 0). pose proof (cell_square (2 * k)). pose proof (cell_square (2 * k + 1)). destruct (k =? 0)%Z; lra. Qed.
Lemma band_size : forall a b, (b - a <= 128)%Z -> 0 <= exact_band x a b <= 3e34.
Proof.
  intros a b H. unfold exact_band. split; [apply rsum_pos; intros; apply bin_size|]. eapply Rle_trans; [apply rsum_le; intros; apply bin_size|]. rewrite ints_length.
  assert (INR (Z.to_nat (b - a)) <= 128). { replace 128 with (INR 128) by (rewrite INR_IZR_INZ; reflexivity). apply le_INR. lia. } lra.
Qed.
Lemma bin_approx : forall k, approx [bin_power x k] (exact_bin x k) (exact_bin x k).
Proof. intros k. unfold bin_power, exact_bin. destruct (k =? 0)%Z; [apply square_approx; apply cell_ok|apply pair_approx; apply cell_ok]. Qed.
Lemma bins_approx : forall a b, approx (bin_powers x a b) (exact_band x a b) (exact_band x a b).
Proof. intros a b. rewrite bin_powers_ints. apply approx_map. intros k _. apply bin_approx. Qed.
Lemma squares_approx : forall n a, (1 <= a)%Z -> approx (map (fun k => fmul (cell zero x k) (cell zero x k)) (ints (2 * a) (2 * a + 2 * Z.of_nat n))) (exact_band x a (a + Z.of_nat n)) (exact_band x a (a + Z.of_nat n)).
Proof.
  induction n as [|n IH]; intros a Ha.
  - rewrite ints_nil by lia. unfold exact_band. rewrite ints_nil by lia. apply approx_nil.
  - rewrite ints_cons, ints_cons by lia. unfold exact_band. rewrite (ints_cons a) by lia. unfold rsum at 1 2. cbn [fold_right map].
    specialize (IH (a + 1)%Z ltac:(lia)). replace (2 * (a + 1))%Z with (2 * a + 1 + 1)%Z in IH by lia. replace (2 * a + 1 + 1 + 2 * Z.of_nat n)%Z with (2 * a + 2 * Z.of_nat (S n))%Z in IH by lia. replace (a + 1 + Z.of_nat n)%Z with (a + Z.of_nat (S n))%Z in IH by lia.
    apply (approx_app [_; _]); [|exact IH]. unfold exact_bin. destruct (Z.eqb_spec a 0); [lia|]. apply (approx_app [_]); apply square_approx; apply cell_ok.
Qed.
Lemma band_agrees : forall simd a b, (0 <= a)%Z -> (b <= 128)%Z -> agrees (band_power simd x a b) (exact_band x a b) (exact_band x a b).
Proof.
  intros simd a b Ha Hb. pose proof (band_size a b ltac:(lia)) as SZ. unfold band_power. cbv zeta. destruct (lanes4 simd).
  2:{ destruct (fold_summed (bin_powers x a b) [] zero 0 sum_nil) as (zs & P & S). rewrite app_nil_r in P. pose proof (Permutation_length P) as LP. rewrite bin_powers_ints, map_length, ints_length in LP.
    eapply approx_sum; [eapply approx_perm; [exact P|apply bins_approx]|exact S| | |lra]; rewrite ?bin_powers_ints, ?map_length, ?ints_length; lia. }
  set (st := Z.max a 1). set (g := (Z.max 0 (b - st) / 4)%Z). assert (G : (0 <= g /\ 4 * g <= Z.max 0 (b - st))%Z) by (unfold g; split; [apply Z.div_pos; lia|apply Z.mul_div_le; lia]).
  set (sq := map _ (seq 0 (Z.to_nat (8 * g)))). assert (LS : length sq = Z.to_nat (8 * g)) by (unfold sq; now rewrite map_length, seq_length).
  assert (SQ : approx sq (exact_band x st (st + 4 * g)) (exact_band x st (st + 4 * g))).
  { pose proof (squares_approx (Z.to_nat (4 * g)) st ltac:(unfold st; lia)) as Q. rewrite Z2Nat.id in Q by lia. unfold sq. revert Q. unfold ints at 1. rewrite map_map. replace (Z.to_nat (2 * st + 2 * (4 * g) - 2 * st)) with (Z.to_nat (8 * g)) by lia. exact (fun Q => Q). }
  destruct (fold_summed (bin_powers x a (Z.min b st)) [] zero 0 sum_nil) as (z1 & P1 & S1). rewrite app_nil_r in P1. cbn [Nat.add] in S1. set (first := fold_left fadd (bin_powers x a (Z.min b st)) zero) in *.
  destruct (add_all_summed simd sq) as (z2 & n2 & P2 & S2 & N2).
  assert (BASE : exists zs n, approx zs (exact_band x a (Z.min b st) + exact_band x st (st + 4 * g)) (exact_band x a (Z.min b st) + exact_band x st (st + 4 * g)) /\
    summed zs (if (g =? 0)%Z then first else fadd first (add_all simd sq)) n /\ (n <= 5 + Z.to_nat (8 * g))%nat /\ (length zs <= 1 + Z.to_nat (8 * g))%nat).
  { assert (A1 : approx z1 (exact_band x a (Z.min b st)) (exact_band x a (Z.min b st))) by (eapply approx_perm; [exact P1|apply bins_approx]).
    pose proof (Permutation_length P1) as L1. pose proof (Permutation_length P2) as L2. rewrite LS in L2, N2. rewrite bin_powers_ints, map_length, ints_length in L1, S1.
    assert (E1 : (Z.to_nat (Z.min b st - a) <= 1)%nat) by (unfold st; lia).
    destruct (Z.eqb_spec g 0) as [E|E].
    - exists z1. eexists. split; [|split; [exact S1|split; lia]]. rewrite E. unfold exact_band at 2 4. rewrite ints_nil by lia. cbn [rsum fold_right]. rewrite Rplus_0_r. exact A1.
    - exists (z1 ++ z2). eexists. split; [apply approx_app; [exact A1|eapply approx_perm; [exact P2|exact SQ]]|]. split; [apply sum_join; [exact S1|exact S2]|]. rewrite app_length. split; lia. }
  destruct BASE as (zs & n & A & S & N & LZ). destruct (fold_summed (bin_powers x (st + 4 * g) b) zs _ n S) as (ws & PW & SW).
  pose proof (approx_app _ _ _ _ _ _ (bins_approx (st + 4 * g) b) A) as AW. apply (approx_perm _ _ _ _ PW) in AW.
  assert (EX : exact_band x (st + 4 * g) b + (exact_band x a (Z.min b st) + exact_band x st (st + 4 * g)) = exact_band x a b).
  { unfold exact_band. destruct (Z.le_gt_cases st b) as [C|C].
    - rewrite (ints_app a st b), (ints_app st (st + 4 * g) b), !rsum_app by (unfold st in *; lia). replace (Z.min b st) with st by lia. ring.
    - assert (g = 0%Z) by lia. rewrite (ints_nil (st + 4 * g)), (ints_nil st) by lia. cbn [rsum fold_right]. replace (Z.min b st) with b by lia. ring. }
  rewrite EX in AW. pose proof (Permutation_length PW) as LW. rewrite app_length, bin_powers_ints, map_length, ints_length in LW. 
  assert (E8 : (4 * g <= 127)%Z) by (unfold st in *; lia). assert (E4 : (b - (st + 4 * g) <= 3)%Z). { unfold g. pose proof (Z.mod_pos_bound (Z.max 0 (b - st)) 4 ltac:(lia)). pose proof (Z.div_mod (Z.max 0 (b - st)) 4 ltac:(lia)). lia. }
  eapply approx_sum; [exact AW|exact SW| | |lra]; rewrite ?bin_powers_ints, ?map_length, ?ints_length in *; lia.
Qed.
End Band.
