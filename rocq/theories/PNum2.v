(* The unvoiced part of a frame of moderate amplitudes, and smoothing. *)
From Coq Require Import ZArith Reals Lra Lia List Bool Permutation.
From Verif Require Import Res F32 MParms MSynth SpecAdaptive SpecGen SpecWola SpecOut SpecAmp SpecSum SpecSynth SpecTrig SpecFftErr SpecNum PFloat PFloat2 PReal PSum PPredict PGen PWola PSpeech PSynth POsc PEnh3 PNum.
From Flocq Require Import Core.Core.
Import ListNotations.
Local Open Scope R_scope.

(* ---- sums of numbers that are not negative ---- *)
Lemma of_Z_pos : forall z, (0 <= z <= 2147483647)%Z -> from0 2147483648 (f_of_Z z).
Proof.
  intros z Hz. assert (E : F2R (Float radix2 z 0) = IZR z) by (unfold F2R; cbn [Fnum Fexp bpow]; ring).
  assert (Eh : R_of (f_of_Z 2147483648) = 2147483648) by (R_val (f_of_Z 2147483648); lra).
  assert (W : within 24 128 zero (f_of_Z 2147483648) (F2R (Float radix2 z 0))).
  { split; [reflexivity|]. split; [apply vf_of_Z|]. rewrite E, Eh. change (R_of zero) with 0. split; apply IZR_le; lia. }
  destruct (norm_R 24 128 Hp24 He24 z 0 false _ _ W) as [A B]. destruct W as (W1 & W2 & W3).
  split; [split; [apply vf_of_Z|exact A]|]. unfold f_of_Z at 1 2. rewrite B. pose proof (rnd_between 24 128 Hp24 _ _ _ W1 W2 W3) as K. rewrite Eh in K. exact K.
Qed.
Lemma add_ge : forall x y, ff x -> ff y -> 0 <= R_of x -> 0 <= R_of y -> R_of x + R_of y <= 1e30 -> ff (fadd x y) /\ R_of x <= R_of (fadd x y) /\ R_of y <= R_of (fadd x y).
Proof.
  intros x y X Y Px Py H. assert (M : R_of x + R_of y <= R_of FLT_MAX) by (apply in_max; rewrite Rabs_pos_eq by lra; unfold huge; lra).
  destruct (fadd_b x y x FLT_MAX X Y X ff_max) as (F & [A _] & _); [lra|]. destruct (fadd_b x y y FLT_MAX X Y Y ff_max) as (_ & [B _] & _); [lra|]. auto.
Qed.
Lemma fold_ge : forall l c a x, 1e-20 <= c <= 1e25 -> Forall (from0 c) l -> from0 (2 * a * c) x -> 0 <= a -> a + INR (length l) <= 1000 ->
  from0 (2 * (a + INR (length l)) * c) (fold_left fadd l x) /\ R_of x <= R_of (fold_left fadd l x) /\ (forall y, In y l -> R_of y <= R_of (fold_left fadd l x)).
Proof.
  induction l as [|y l IH]; intros c a x C F X A N.
  - cbn [fold_left length INR]. rewrite Rplus_0_r. split; [exact X|]. split; [lra|]. intros y [].
  - inversion F as [|? ? Y F']; subst. cbn [fold_left]. change (length (y :: l)) with (S (length l)) in *. rewrite S_INR in *. pose proof (pos_INR (length l)).
    replace (a + (INR (length l) + 1)) with ((a + 1) + INR (length l)) by ring.
    assert (K : 0 <= a * c <= 1000 * c) by (split; [apply Rmult_le_pos; lra|apply Rmult_le_compat_r; lra]).
    destruct X as [FX [X0 X1]], Y as [FY [Y0 Y1]].
    destruct (add_ge x y FX FY X0 Y0) as (FS & S1 & S2); [lra|].
    assert (SZ : sized (2 * (a + 1) * c) (fadd x y)).
    { apply (s_add x y (2 * a * c) c); [apply from0_sized; exact (conj FX (conj X0 X1))|apply from0_sized; exact (conj FY (conj Y0 Y1))|lra|lra]. }
    destruct SZ as [_ SZ]. rewrite Rabs_pos_eq in SZ by lra.
    destruct (IH c (a + 1) (fadd x y)) as (R1 & R2 & R3); auto; try lra; [split; [exact FS|lra]|]. split; [exact R1|]. split; [lra|].
    intros z [<-|Hz]; [lra|apply R3, Hz].
Qed.
Lemma total_ge : forall l c, 1e-20 <= c <= 1e25 -> Forall (from0 c) l -> INR (length l) <= 1000 ->
  from0 (2 * INR (length l) * c) (fold_left fadd l zero) /\ (forall y, In y l -> R_of y <= R_of (fold_left fadd l zero)).
Proof.
  intros l c C F N. pose proof (fold_ge l c 0 zero C F) as H. rewrite Rplus_0_l in H. destruct H as (H1 & _ & H3); try lra; [|auto].
  split; [split; reflexivity|]. change (R_of zero) with 0. lra.
Qed.
(* the same in any order of additions *)
Lemma summed_ge : forall c xs s n, 1e-20 <= c <= 1e25 -> summed xs s n -> INR n <= 1000 -> Forall (from0 c) xs -> from0 (2 * INR n * c) s /\ forall y, In y xs -> R_of y <= R_of s.
Proof.
  intros c xs s n C H. induction H as [|x xs s n H IH|xs s n ys t m H1 IH1 H2 IH2]; intros N F.
  - cbn [INR]. split; [split; [split; reflexivity|]|intros y []]. change (R_of (S754_zero false)) with 0. lra.
  - inversion F as [|? ? Y F']; subst. rewrite S_INR in *. pose proof (pos_INR n). destruct IH as [[FX [X0 X1]] G]; [lra|exact F'|].
    assert (K : 0 <= INR n * c <= 1000 * c) by (split; [apply Rmult_le_pos; lra|apply Rmult_le_compat_r; lra]). destruct Y as [FY [Y0 Y1]].
    destruct (add_ge s x FX FY X0 Y0) as (FS & S1 & S2); [lra|].
    assert (SZ : sized (2 * (INR n + 1) * c) (fadd s x)).
    { apply (s_add s x (2 * INR n * c) c); [apply from0_sized; exact (conj FX (conj X0 X1))|apply from0_sized; exact (conj FY (conj Y0 Y1))|lra|lra]. }
    destruct SZ as [_ SZ]. rewrite Rabs_pos_eq in SZ by lra. split; [split; [exact FS|lra]|]. intros y [<-|Hy]; [lra|]. specialize (G y Hy). lra.
  - apply Forall_app in F as [F1 F2]. rewrite S_INR, plus_INR in *. pose proof (pos_INR n). pose proof (pos_INR m).
    destruct IH1 as [[FX [X0 X1]] G]; [lra|exact F1|]. destruct IH2 as [[FY [Y0 Y1]] G2]; [lra|exact F2|].
    assert (K : 0 <= (INR n + INR m) * c <= 1000 * c) by (split; [apply Rmult_le_pos; lra|apply Rmult_le_compat_r; lra]).
    destruct (add_ge s t FX FY X0 Y0) as (FS & S1 & S2); [lra|].
    assert (SZ : sized (2 * (INR n + INR m + 1) * c) (fadd s t)).
    { apply (s_add s t (2 * INR n * c) (2 * INR m * c)); [apply from0_sized; exact (conj FX (conj X0 X1))|apply from0_sized; exact (conj FY (conj Y0 Y1))|lra|lra]. }
    destruct SZ as [_ SZ]. rewrite Rabs_pos_eq in SZ by lra. split; [split; [exact FS|lra]|]. intros y Hy. apply in_app_iff in Hy as [Hy|Hy]; [specialize (G y Hy)|specialize (G2 y Hy)]; lra.
Qed.
Lemma add_all_ge : forall simd c xs, 1e-20 <= c <= 1e25 -> INR (length xs) <= 900 -> Forall (from0 c) xs -> from0 (2 * (INR (length xs) + 3) * c) (add_all simd xs) /\ forall y, In y xs -> R_of y <= R_of (add_all simd xs).
Proof.
  intros simd c xs C N F. destruct (add_all_summed simd xs) as (ys & n & P & S & L). apply le_INR in L. rewrite plus_INR in L. change (INR 3) with (2 + 1) in L.
  destruct (summed_ge c ys _ n C S) as [[FS [S0 S1]] G]; [lra|eapply Permutation_Forall; eauto|]. split; [split; [exact FS|]|].
  - split; [exact S0|]. eapply Rle_trans; [exact S1|]. apply Rmult_le_compat_r; lra.
  - intros y Hy. apply G. eapply Permutation_in; eauto.
Qed.

(* ---- smoothing ---- *)
Lemma bands_cell : forall (l : list f32) L x, length l = 57%nat -> (0 <= L <= 56)%Z -> In x (bands l L) <-> exists k, (1 <= k <= L)%Z /\ x = cell zero l k.
Proof.
  intros l L x Hl HL. unfold bands. split.
  - intros H. apply (In_nth _ _ zero) in H as (i & Hi & <-). rewrite firstn_length in Hi. exists (Z.of_nat i + 1)%Z. split; [lia|]. unfold cell.
    assert (Hi' : (i < Z.to_nat L)%nat) by lia. replace (Z.to_nat (Z.of_nat i + 1)) with (S i) by lia.
    rewrite <- (firstn_skipn (Z.to_nat L) (tl l)) at 1. destruct l as [|a l]; [discriminate Hl|]. cbn [tl nth].
    rewrite <- (firstn_skipn (Z.to_nat L) l) at 3. rewrite app_nth1 by (rewrite firstn_length; cbn [tl length] in *; lia). rewrite firstn_skipn. reflexivity.
  - intros (k & Hk & ->). unfold cell. destruct l as [|a l]; [discriminate Hl|]. cbn [tl]. replace (Z.to_nat k) with (S (Z.to_nat (k - 1))) by lia. cbn [nth].
    rewrite <- (firstn_skipn (Z.to_nat L) l) at 1. cbn [length] in Hl. rewrite app_nth1 by (rewrite firstn_length; lia). apply nth_In. rewrite firstn_length. lia.
Qed.
Lemma bands_length : forall (l : list f32) L, (length (bands l L) <= Z.to_nat L)%nat.
Proof. intros. unfold bands. rewrite firstn_length. lia. Qed.
Lemma cell_replaced : forall {A} (d : A) lo hi f old i, (0 <= i < 57)%Z -> cell d (replaced d lo hi f old) i = if ((lo <=? i) && (i <=? hi))%Z then f i else cell d old i.
Proof. intros. apply rd_cell. now apply replaced_rd. Qed.

Lemma smoothed_amplitudes : forall o e b cur prev, length (p_Ml cur) = 57%nat -> (0 <= p_L cur <= 56)%Z -> 1 <= b <= 1e12 -> amplitudes_to b cur ->
  (0 <= amplitude_limit (p_errorRate cur) (p_errorCountTotal cur) (p_amplitudeThreshold prev) <= 2147483647)%Z -> amplitudes_to b (smoothing_result o e cur prev).
Proof.
  intros o e b cur prev HM HL B HA HT l Hl. change (p_L (smoothing_result o e cur prev)) with (p_L cur) in Hl.
  set (T := amplitude_limit _ _ _) in *. set (sum := float_sum (bands (p_Ml cur) (p_L cur))).
  assert (EM : p_Ml (smoothing_result o e cur prev) = if fgt sum (f_of_Z T) && fgt sum zero
             then replaced zero 1 (p_L cur) (fun l => fmul (cell zero (p_Ml cur) l) (fdiv (f_of_Z T) sum)) (p_Ml cur) else p_Ml cur) by reflexivity.
  rewrite EM. clear EM. destruct (_ && _) eqn:E; [|apply HA, Hl].
  rewrite cell_replaced by lia. replace ((1 <=? l) && (l <=? p_L cur))%Z with true by lia.
  destruct (of_Z_pos T HT) as [TF [T0 T1]].
  assert (FS : ff sum /\ 0 <= R_of sum).
  { destruct (total_ge (bands (p_Ml cur) (p_L cur)) b) as [[S1 S2] _]; [lra| | |split; [exact S1|apply S2]].
    - apply Forall_forall. intros x Hx. apply bands_cell in Hx as (k & Hk & ->); auto. apply HA, Hk.
    - pose proof (bands_length (p_Ml cur) (p_L cur)) as N. assert (N' : (length (bands (p_Ml cur) (p_L cur)) <= 56)%nat) by lia. apply le_INR in N'. rewrite (INR_IZR_INZ 56) in N'. change (IZR (Z.of_nat 56)) with 56 in N'. lra. }
  destruct FS as [SF S0]. apply andb_true_iff in E as [E _]. unfold fgt in E. apply flt_true in E; auto.
  destruct (HA l Hl) as [MF [M0 M1]].
  assert (F1 : ff (f_of_Z 1) /\ R_of (f_of_Z 1) = 1) by (apply of_Z_R; lia). destruct F1 as [F1 E1]. assert (FZ : ff zero) by (split; reflexivity).
  assert (Q : 0 <= R_of (f_of_Z T) / R_of sum <= 1).
  { assert (I : 0 < / R_of sum) by (apply Rinv_0_lt_compat; lra). unfold Rdiv. split; [apply Rmult_le_pos; lra|].
    replace 1 with (R_of sum * / R_of sum) by (field; lra). apply Rmult_le_compat_r; lra. }
  destruct (fdiv_b (f_of_Z T) sum zero (f_of_Z 1) TF SF) as (DF & D & _); auto; [lra|rewrite E1; exact Q|]. rewrite E1 in D. change (R_of zero) with 0 in D.
  destruct (fmul_b (cell zero (p_Ml cur) l) (fdiv (f_of_Z T) sum) zero (cell zero (p_Ml cur) l)) as (PF & P & _); auto.
  - change (R_of zero) with 0. split; [apply Rmult_le_pos; lra|]. rewrite <- (Rmult_1_r (R_of (cell zero (p_Ml cur) l))) at 2. apply Rmult_le_compat_l; lra.
  - change (R_of zero) with 0 in P. split; [exact PF|lra].
Qed.

(* ---- the noise ---- *)
Lemma lcg_sized : forall s k, (0 <= s < 53125)%Z -> sized 60000 (f_of_Z (lcg_state s k)).
Proof. intros s k H. pose proof (lcg_state_range s k H). apply s_int; [lia|]. apply IZR_le. lia. Qed.
Lemma noise_sized : forall seed ov, generator_seed seed -> Forall (sized 60000) ov -> Forall (sized 60000) (noise_of seed ov).
Proof.
  intros seed ov G H. unfold noise_of. destruct (cold seed) eqn:C.
  - apply Forall_forall. intros x Hx. apply repeat_spec in Hx as ->. apply s_zero. lra.
  - apply Forall_app. split; [exact H|]. destruct G as [G|(z & Hz & ->)]; [congruence|]. apply Forall_forall. intros x Hx. apply in_map_iff in Hx as (i & <- & _). apply lcg_sized.
    unfold whole_part. rewrite trunc_of_Z by lia. exact Hz.
Qed.
Lemma window_sized : forall i, (-160 <= i < 160)%Z -> sized 1 (window i).
Proof.
  assert (K : forallb (fun k => small1 (window (Z.of_nat k - 160))) (seq 0 320) = true) by (vm_compute; reflexivity).
  intros i H. rewrite forallb_forall in K. replace i with (Z.of_nat (Z.to_nat (i + 160)) - 160)%Z by lia. apply small1_sized, K. apply in_seq. lia.
Qed.
Lemma windowed_sized : forall noise, Forall (sized 60000) noise -> Forall (sized 61000) (windowed noise).
Proof.
  intros noise H. unfold windowed. apply Forall_forall. intros x Hx. apply in_map_iff in Hx as (i & <- & Hi). apply in_seq in Hi.
  assert (N : sized 60000 (nth i noise zero)) by (replace i with (Z.to_nat (Z.of_nat i)) by lia; apply (s_cell 60000); [lra|exact H]).
  apply (s_mul _ _ 60000 1); try lra; [exact N|apply window_sized; lia].
Qed.
Lemma square_low : forall x c, sized c x -> c <= 1e12 -> from0 (c * c * 1.000001 + 1e-30) (fmul x x) /\ R_of x * R_of x <= 1.00001 * R_of (fmul x x) + 1e-30.
Proof.
  intros x c S C. pose proof (s_pos _ _ S) as P. assert (Q : R_of x * R_of x <= c * c /\ 0 <= R_of x * R_of x).
  { destruct S as [_ S]. split; [|apply Rle_0_sqr]. rewrite <- (Rabs_pos_eq (R_of x * R_of x)) by apply Rle_0_sqr. rewrite Rabs_mult. apply Rmult_le_compat; auto using Rabs_pos. }
  assert (CC : c * c <= 1e24) by (replace 1e24 with (1e12 * 1e12) by lra; apply Rmult_le_compat; lra).
  destruct S as [F S]. destruct (fmul_e x x F F) as [G E]; [rewrite Rabs_pos_eq by lra; unfold huge; lra|]. rewrite (Rabs_pos_eq (R_of x * R_of x)) in E by lra. u_hyps.
  assert (E' := Rabs_le_inv _ _ E). assert (U : 0 <= u24 * (R_of x * R_of x) <= / 10000000 * (R_of x * R_of x)).
  { split; [apply Rmult_le_pos; lra|apply Rmult_le_compat_r; [lra|]]. unfold u24. lra. }
  pose proof tiny_40. split; [split; [exact G|]|lra]. split; [|lra].
  destruct (fmul_b x x zero FLT_MAX F F) as (_ & [A _] & _); [split; reflexivity|exact ff_max| |exact A].
  change (R_of zero) with 0. split; [lra|]. apply in_max. rewrite Rabs_pos_eq by lra. unfold huge. lra.
Qed.
Section Noise.
Context (x : list f32) (X : Forall (sized 2e7) x).
Lemma power_at : forall bin, from0 1e15 (bin_power x bin) /\
  forall i, (0 <= i < 256)%Z -> i <> 1%Z -> bin = bin_at i -> R_of (cell zero x i) * R_of (cell zero x i) <= 1.00001 * R_of (bin_power x bin) + 1e-30.
Proof.
  intros bin. assert (C : forall i, sized 2e7 (cell zero x i)) by (intros; apply s_cell; [lra|exact X]).
  assert (Q : forall i, from0 5e14 (fmul (cell zero x i) (cell zero x i)) /\ R_of (cell zero x i) * R_of (cell zero x i) <= 1.00001 * R_of (fmul (cell zero x i) (cell zero x i)) + 1e-30).
  { intros i. destruct (square_low _ _ (C i)) as [[A B] D]; [lra|]. split; [split; [exact A|lra]|exact D]. }
  unfold bin_power. destruct (Z.eqb_spec bin 0) as [->|N].
  - destruct (Q 0%Z) as [[A B] D]. split; [split; [exact A|lra]|]. intros i Hi N1 E. unfold bin_at in E. destruct (Z.eqb_spec i 0) as [->|]; [exact D|]. destruct (Z.eqb_spec i 1); [lia|]. exfalso. pose proof (Z.div_mod i 2). pose proof (Z.mod_pos_bound i 2). lia.
  - destruct (Q (2 * bin)%Z) as [[A B] D]. destruct (Q (2 * bin + 1)%Z) as [[A' B'] D'].
    destruct (add_ge _ _ A A') as (F & S1 & S2); try lra. split.
    + assert (SZ : sized 1e15 (fadd (fmul (cell zero x (2 * bin)) (cell zero x (2 * bin))) (fmul (cell zero x (2 * bin + 1)) (cell zero x (2 * bin + 1))))).
      { (* the sum of two *) apply (s_add _ _ 4.5e14 4.5e14); try lra.
        - destruct (square_low _ _ (C (2 * bin)%Z)) as [[K1 K2] _]; [lra|]. apply from0_sized. split; [exact K1|lra].
        - destruct (square_low _ _ (C (2 * bin + 1)%Z)) as [[K1 K2] _]; [lra|]. apply from0_sized. split; [exact K1|lra]. }
      destruct SZ as [_ SZ]. rewrite Rabs_pos_eq in SZ by lra. split; [exact F|lra].
    + intros i Hi N1 E. unfold bin_at in E. destruct (Z.eqb_spec i 0); [lia|]. destruct (Z.eqb_spec i 1); [lia|].
      pose proof (Z.div_mod i 2). pose proof (Z.mod_pos_bound i 2). assert (Ei : i = (2 * bin)%Z \/ i = (2 * bin + 1)%Z) by lia. destruct Ei as [->| ->]; lra.
Qed.
Lemma square_at : forall i, from0 5e14 (fmul (cell zero x i) (cell zero x i)) /\ R_of (cell zero x i) * R_of (cell zero x i) <= 1.00001 * R_of (fmul (cell zero x i) (cell zero x i)) + 1e-30.
Proof.
  intros i. assert (C : sized 2e7 (cell zero x i)) by (apply s_cell; [lra|exact X]). destruct (square_low _ _ C) as [[A B] D]; [lra|]. split; [split; [exact A|lra]|exact D].
Qed.
Lemma powers_from0 : forall lo hi, Forall (from0 1e15) (bin_powers x lo hi).
Proof. intros. apply Forall_forall. intros y Hy. apply in_map_iff in Hy as (k & <- & _). apply power_at. Qed.
Lemma powers_in : forall lo hi bin, (lo <= bin < hi)%Z -> In (bin_power x bin) (bin_powers x lo hi).
Proof. intros lo hi bin Hb. apply in_map_iff. exists (Z.to_nat (bin - lo)). split; [f_equal; lia|]. apply in_seq. lia. Qed.
Lemma powers_count : forall lo hi n, (hi - lo <= Z.of_nat n)%Z -> INR (length (bin_powers x lo hi)) <= INR n.
Proof. intros. apply le_INR. unfold bin_powers. rewrite map_length, seq_length. lia. Qed.
Lemma band_power_ge : forall simd lo hi, (0 <= lo)%Z -> (hi <= 128)%Z -> from0 1e18 (band_power simd x lo hi) /\
  forall i, (0 <= i < 256)%Z -> i <> 1%Z -> (lo <= bin_at i < hi)%Z -> R_of (cell zero x i) * R_of (cell zero x i) <= 1.00001 * R_of (band_power simd x lo hi) + 1e-30.
Proof.
  intros simd lo hi Hlo Hhi. unfold band_power; cbv zeta. destruct (lanes4 simd).
  2:{ pose proof (powers_count lo hi 128 ltac:(lia)) as LR. rewrite (INR_IZR_INZ 128) in LR. change (IZR (Z.of_nat 128)) with 128 in LR. pose proof (pos_INR (length (bin_powers x lo hi))).
    destruct (total_ge (bin_powers x lo hi) 1e15) as [[A B] C]; [lra|apply powers_from0|lra|]. split; [split; [exact A|lra]|].
    intros i Hi N Hb. destruct (power_at (bin_at i)) as [_ PI']. specialize (PI' i Hi N eq_refl). specialize (C _ (powers_in _ _ _ Hb)). lra. }
  set (from := Z.max lo 1). set (groups := (Z.max 0 (hi - from) / 4)%Z). assert (HF : (1 <= from)%Z) by lia.
  assert (HG : (0 <= groups <= 32 /\ 4 * groups <= Z.max 0 (hi - from))%Z).
  { pose proof (Z.div_mod (Z.max 0 (hi - from)) 4). pose proof (Z.mod_pos_bound (Z.max 0 (hi - from)) 4). fold groups in H. lia. }
  set (first := fold_left fadd (bin_powers x lo (Z.min hi from)) zero).
  assert (F1 : from0 2e15 first /\ forall y, In y (bin_powers x lo (Z.min hi from)) -> R_of y <= R_of first).
  { pose proof (powers_count lo (Z.min hi from) 1 ltac:(lia)) as LR. change (INR 1) with 1 in LR. pose proof (pos_INR (length (bin_powers x lo (Z.min hi from)))).
    destruct (total_ge (bin_powers x lo (Z.min hi from)) 1e15) as [[A B] C]; [lra|apply powers_from0|lra|]. split; [split; [exact A|fold first in B |- *; lra]|exact C]. }
  destruct F1 as [[F1 [F2 F3]] F4]. set (squares := map _ (seq 0 (Z.to_nat (8 * groups)))).
  assert (SQ : from0 3e17 (add_all simd squares) /\ forall y, In y squares -> R_of y <= R_of (add_all simd squares)).
  { assert (LR : (length squares <= 256)%nat) by (unfold squares; rewrite map_length, seq_length; lia). apply le_INR in LR. rewrite (INR_IZR_INZ 256) in LR. change (IZR (Z.of_nat 256)) with 256 in LR. pose proof (pos_INR (length squares)).
    destruct (add_all_ge simd 5e14 squares) as [[A B] C]; [lra|lra| |split; [split; [exact A|lra]|exact C]].
    apply Forall_forall. intros y Hy. apply in_map_iff in Hy as (k & <- & _). apply square_at. }
  destruct SQ as [[Q1 [Q2 Q3]] Q4]. destruct (add_ge first (add_all simd squares) F1 Q1 F2 Q2) as (G1 & G2 & G3); [lra|].
  assert (GS : sized 4e17 (fadd first (add_all simd squares))) by (apply (s_add _ _ 2e15 3e17); try lra; apply from0_sized; repeat split; assumption || apply F1 || apply Q1).
  destruct GS as [_ GS]. rewrite Rabs_pos_eq in GS by lra.
  set (base := if (groups =? 0)%Z then first else fadd first (add_all simd squares)).
  assert (HB : from0 (2 * 250 * 1e15) base /\ R_of first <= R_of base /\ (groups <> 0%Z -> R_of (add_all simd squares) <= R_of base)).
  { unfold base. destruct (Z.eqb_spec groups 0) as [E|E]; (split; [split; [assumption|lra]|split; [lra|]]); [lia|intros _; exact G3]. }
  destruct HB as (HB & B1 & B2). pose proof (powers_count (from + 4 * groups) hi 128 ltac:(lia)) as LR. rewrite (INR_IZR_INZ 128) in LR. change (IZR (Z.of_nat 128)) with 128 in LR.
  destruct (fold_ge (bin_powers x (from + 4 * groups) hi) 1e15 250 base) as ((T1 & T2) & T3 & T4); [lra|apply powers_from0|exact HB|lra|lra|].
  set (total := fold_left fadd (bin_powers x (from + 4 * groups) hi) base) in *. split; [split; [exact T1|lra]|].
  intros i Hi N Hb. destruct (power_at (bin_at i)) as [_ PI']. specialize (PI' i Hi N eq_refl).
  destruct (Z_lt_le_dec (bin_at i) from) as [K|K]; [specialize (F4 (bin_power x (bin_at i)) (powers_in lo (Z.min hi from) (bin_at i) ltac:(lia))); lra|].
  destruct (Z_lt_le_dec (bin_at i) (from + 4 * groups)) as [K'|K']; [|specialize (T4 (bin_power x (bin_at i)) (powers_in (from + 4 * groups)%Z hi (bin_at i) ltac:(lia))); lra].
  assert (IN : In (fmul (cell zero x i) (cell zero x i)) squares).
  { unfold bin_at in K, K'. destruct (Z.eqb_spec i 0); [lia|]. destruct (Z.eqb_spec i 1); [lia|]. pose proof (Z.div_mod i 2). pose proof (Z.mod_pos_bound i 2).
    apply in_map_iff. exists (Z.to_nat (i - 2 * from)). split; [replace (2 * from + Z.of_nat (Z.to_nat (i - 2 * from)))%Z with i by lia; reflexivity|]. apply in_seq. lia. }
  specialize (Q4 _ IN). destruct (square_at i) as [_ SI]. specialize (B2 ltac:(lia)). lra.
Qed.
Lemma band_low_pos : forall cur l, pitch_one (p_w0 cur) -> (1 <= l <= 56)%Z -> (0 <= band_low cur l)%Z.
Proof.
  intros cur l [F W] Hl. unfold band_low, band_edge.
  assert (H1 : ff (flit 1 2) /\ R_of (flit 1 2) = 1 / 2) by (split; [apply ff_const; reflexivity|R_val (flit 1 2); lra]). destruct H1 as [H1 E1].
  assert (H2 : ff bins_per_radian /\ 40 <= R_of bins_per_radian <= 41) by (split; [apply ff_const; vm_compute; reflexivity|R_val bins_per_radian; lra]). destruct H2 as [H2 E2].
  destruct (of_Z_R (l - 1)) as [F1 F2]; [lia|]. assert (B : 0 <= IZR (l - 1) <= 55) by (split; apply IZR_le; lia).
  assert (FM : forall r, 0 <= r -> r <= 100000 -> R_of zero <= r <= R_of FLT_MAX).
  { intros r R0 R1. change (R_of zero) with 0. split; [exact R0|]. apply in_max. rewrite Rabs_pos_eq by exact R0. unfold huge. lra. }
  assert (FZ : ff zero) by (split; reflexivity).
  destruct (fadd_b (f_of_Z (l - 1)) (flit 1 2) zero FLT_MAX) as (A1 & [A2 _] & _); auto using ff_max; [apply FM; lra|].
  assert (A3 : sized 57 (fadd (f_of_Z (l - 1)) (flit 1 2))) by (apply (s_add _ _ 55 1); try lra; split; auto; rewrite Rabs_pos_eq; lra).
  change (R_of zero) with 0 in A2. destruct A3 as [_ A3]. rewrite Rabs_pos_eq in A3 by exact A2.
  assert (BW : 0 <= R_of bins_per_radian * R_of (p_w0 cur) <= 41 * 1) by (split; [apply Rmult_le_pos; lra|apply Rmult_le_compat; lra]).
  destruct (fmul_b bins_per_radian (p_w0 cur) zero FLT_MAX) as (B1 & [B2 _] & _); auto using ff_max; [apply FM; lra|].
  assert (B3 : sized 42 (fmul bins_per_radian (p_w0 cur))) by (apply (s_mul _ _ 41 1); try lra; split; auto; rewrite Rabs_pos_eq; lra).
  change (R_of zero) with 0 in B2. destruct B3 as [_ B3]. rewrite Rabs_pos_eq in B3 by exact B2.
  assert (CW : 0 <= R_of (fadd (f_of_Z (l - 1)) (flit 1 2)) * R_of (fmul bins_per_radian (p_w0 cur)) <= 57 * 42) by (split; [apply Rmult_le_pos; lra|apply Rmult_le_compat; lra]).
  destruct (fmul_b (fadd (f_of_Z (l - 1)) (flit 1 2)) (fmul bins_per_radian (p_w0 cur)) zero FLT_MAX) as (C1 & [C2 _] & _); auto using ff_max; [apply FM; lra|].
  change (R_of zero) with 0 in C2. rewrite ceil_Z_R by apply C1. apply le_IZR. eapply Rle_trans; [exact C2|apply Zceil_ub].
Qed.
(* a value of the spectrum times the gain of its bin *)
Lemma gain_sized : forall simd b cur l i, 1 <= b <= 1e12 -> pitch_one (p_w0 cur) -> (1 <= l <= 56)%Z -> sized b (cell zero (p_Ml cur) l) ->
  (0 <= i < 256)%Z -> i <> 1%Z -> (band_low cur l <= bin_at i < band_high cur l)%Z -> sized (1800 * b) (fmul (cell zero x i) (band_gain simd x cur l)).
Proof.
  intros simd b cur l i B W Hl M Hi N1 Hb. pose proof (s_cell 2e7 x i ltac:(lra) X) as SX. unfold band_gain.
  pose proof (band_low_pos cur l W Hl) as LO. assert (HI : (band_high cur l <= 128)%Z) by (unfold band_high; lia). set (lo := band_low cur l) in *. set (hi := band_high cur l) in *.
  destruct (band_power_ge simd lo hi LO HI) as [[PF [P0 P1]] PB]. specialize (PB i Hi N1 Hb). set (P := band_power simd x lo hi) in *.
  destruct (_ && _) eqn:E; [|apply (s_mul _ _ 2e7 0); try lra; [exact SX|apply s_zero; lra]].
  apply andb_true_iff in E as [_ E]. unfold fgt in E.
  assert (K : ff (flit 1 10000000000) /\ 0.9e-10 <= R_of (flit 1 10000000000)) by (split; [apply ff_const; vm_compute; reflexivity|R_val (flit 1 10000000000); lra]). destruct K as [K1 K2].
  apply flt_true in E; auto. assert (PP : 0.9e-10 <= R_of P) by lra. clear E.
  destruct (int_R (hi - lo)) as [NF NE]; [lia|]. assert (NR : 1 <= IZR (hi - lo) <= 128) by (split; apply IZR_le; lia). rewrite <- NE in NR.
  u_hyps. assert (U : u24 <= / 10000000) by (unfold u24; lra).
  (* the mean power *)
  set (m := fdiv P (f_of_Z (hi - lo))). assert (HM : ff m /\ R_of P <= 129 * R_of m /\ 0 <= R_of m).
  { assert (I : / 128 <= / R_of (f_of_Z (hi - lo)) <= 1) by (split; [apply Rinv_le_contravar; lra|replace 1 with (/ 1) by apply Rinv_1; apply Rinv_le_contravar; lra]).
    assert (D : R_of P / 128 <= R_of P / R_of (f_of_Z (hi - lo)) <= R_of P) by (unfold Rdiv; split; [apply Rmult_le_compat_l; lra|rewrite <- (Rmult_1_r (R_of P)) at 2; apply Rmult_le_compat_l; lra]).
    destruct (fdiv_e P (f_of_Z (hi - lo)) PF NF) as [F1 E1]; [lra|rewrite Rabs_pos_eq by lra; unfold huge; lra|]. rewrite (Rabs_pos_eq (R_of P / _)) in E1 by lra. apply Rabs_le_inv in E1. fold m in F1, E1.
    assert (UQ : 0 <= u24 * (R_of P / R_of (f_of_Z (hi - lo))) <= / 10000000 * (R_of P / R_of (f_of_Z (hi - lo)))) by (split; [apply Rmult_le_pos; lra|apply Rmult_le_compat_r; lra]).
    assert (tiny <= 1e-30) by lra. split; [exact F1|]. split; lra. }
  destruct HM as (MF & M1 & M0). destruct (fsqrt_e m MF M0) as [SF SE]. set (s := fsqrt m) in *. pose proof (sqrt_pos (R_of m)) as SP. pose proof (sqrt_sqrt (R_of m) M0) as SS. set (q := sqrt (R_of m)) in *.
  apply Rabs_le_inv in SE. assert (UQ : 0 <= u24 * q <= / 10000000 * q) by (split; [apply Rmult_le_pos; lra|apply Rmult_le_compat_r; lra]).
  assert (Q0 : 8e-7 <= q) by (apply Rnot_lt_le; intro Hq; assert (q * q <= 8e-7 * 8e-7) by (apply Rmult_le_compat; lra); lra).
  assert (S0 : 0.999 * q <= R_of s) by lra.
  (* the value is at most 12 times the root of the mean power *)
  assert (SQ : R_of (cell zero x i) * R_of (cell zero x i) <= (11.5 * q) * (11.5 * q)) by lra.
  assert (XS : Rabs (R_of (cell zero x i)) <= 11.6 * R_of s).
  { assert (Rabs (R_of (cell zero x i)) <= 11.5 * q); [|lra]. apply Rnot_lt_le. intro Hq.
    assert (11.5 * q * (11.5 * q) < Rabs (R_of (cell zero x i)) * Rabs (R_of (cell zero x i))) by (apply Rmult_le_0_lt_compat; lra).
    rewrite <- Rabs_mult, (Rabs_pos_eq (_ * _)) in H by apply Rle_0_sqr. lra. }
  assert (A : sized 147 (flit 14617696 100000)) by (split; [apply ff_const; vm_compute; reflexivity|R_val (flit 14617696 100000); intros; apply Rabs_le; lra]).
  assert (AM : sized (148 * b) (fmul (flit 14617696 100000) (cell zero (p_Ml cur) l))) by (apply (s_mul _ _ 147 b); auto; lra).
  set (am := fmul (flit 14617696 100000) (cell zero (p_Ml cur) l)) in *. destruct AM as [AF AB].
  assert (IS : 0 < / R_of s <= 2e6) by (split; [apply Rinv_0_lt_compat; lra|replace 2e6 with (/ 5e-7) by lra; apply Rinv_le_contravar; lra]).
  assert (GA : Rabs (R_of am / R_of s) = Rabs (R_of am) * / R_of s) by (unfold Rdiv; rewrite Rabs_mult, (Rabs_pos_eq (/ R_of s)) by lra; reflexivity).
  assert (GB : Rabs (R_of am) * / R_of s <= 148 * b * 2e6) by (apply Rmult_le_compat; try lra; apply Rabs_pos).
  destruct (fdiv_e am s AF SF) as [GF GE]; [lra|rewrite GA; unfold huge; lra|]. set (g := fdiv am s) in *. rewrite GA in GE.
  assert (GS : Rabs (R_of g) <= 1.000001 * (Rabs (R_of am) * / R_of s) + 1e-30).
  { replace (R_of g) with (R_of am / R_of s + (R_of g - R_of am / R_of s)) by ring. eapply Rle_trans; [apply Rabs_triang|]. rewrite GA.
    assert (0 <= Rabs (R_of am) * / R_of s) by (apply Rmult_le_pos; [apply Rabs_pos|lra]).
    assert (u24 * (Rabs (R_of am) * / R_of s) <= / 1000000 * (Rabs (R_of am) * / R_of s)) by (apply Rmult_le_compat_r; lra). lra. }
  assert (PR : Rabs (R_of (cell zero x i) * R_of g) <= 1750 * b).
  { rewrite Rabs_mult. apply Rle_trans with (Rabs (R_of (cell zero x i)) * (1.000001 * (Rabs (R_of am) * / R_of s) + 1e-30)); [apply Rmult_le_compat_l; [apply Rabs_pos|exact GS]|].
    destruct SX as [_ SX]. assert (R1 : Rabs (R_of (cell zero x i)) * / R_of s <= 11.6).
    { replace 11.6 with (11.6 * R_of s * / R_of s) by (field; lra). apply Rmult_le_compat_r; lra. }
    assert (R2 : Rabs (R_of (cell zero x i)) * / R_of s * Rabs (R_of am) <= 11.6 * (148 * b)) by (apply Rmult_le_compat; try lra; [|apply Rabs_pos]; apply Rmult_le_pos; [apply Rabs_pos|lra]).
    replace (Rabs (R_of (cell zero x i)) * (1.000001 * (Rabs (R_of am) * / R_of s) + 1e-30)) with (1.000001 * (Rabs (R_of (cell zero x i)) * / R_of s * Rabs (R_of am)) + 1e-30 * Rabs (R_of (cell zero x i))) by ring. lra. }
  destruct SX as [XF XB]. destruct (fmul_e (cell zero x i) g XF GF) as [F E]; [unfold huge; lra|]. split; [exact F|]. apply (s_round _ _ _ _ E PR). lra.
Qed.
Lemma shaped_sized : forall simd b cur, 1 <= b <= 1e12 -> pitch_one (p_w0 cur) -> (0 <= p_L cur <= 56)%Z -> (forall l, (1 <= l <= p_L cur)%Z -> sized b (cell zero (p_Ml cur) l)) ->
  Forall (sized (1800 * b)) (shaped simd x cur).
Proof.
  intros simd b cur B W HL HM. unfold shaped. apply Forall_forall. intros y Hy. apply in_map_iff in Hy as (k & <- & Hk). apply in_seq in Hk.
  set (i := Z.of_nat k). assert (EC : nth k x zero = cell zero x i) by (unfold cell, i; now rewrite Nat2Z.id). rewrite EC.
  assert (Z0 : sized (1800 * b) (fmul (cell zero x i) zero)) by (apply (s_mul _ _ 2e7 0); try lra; [apply s_cell; [lra|exact X]|apply s_zero; lra]).
  unfold bin_gain. destruct (find _ _) as [l|] eqn:E; [|exact Z0]. apply find_some in E as [E1 E2]. apply in_upto in E1. apply andb_true_iff in E2 as [E2 E3].
  apply Z.leb_le in E2. apply Z.ltb_lt in E3. apply gain_sized; auto; try lia.
  intro Ei. rewrite Ei in E3. unfold band_high in E3. change (bin_at 1) with 128%Z in E3. lia.
Qed.
End Noise.
Section Wave.
Context (o : oracle) (A : bounded_transforms o) (b : R) (B : 1 <= b <= 1e12).
Lemma wave_sized : forall cur noise, Forall (sized 60000) noise -> pitch_one (p_w0 cur) -> (0 <= p_L cur <= 56)%Z -> (forall l, (1 <= l <= p_L cur)%Z -> sized b (cell zero (p_Ml cur) l)) ->
  Forall (sized (5000 * b)) (noise_wave o cur noise).
Proof.
  intros cur noise N W HL HM. unfold noise_wave. pose proof (windowed_sized noise N) as WS.
  assert (XS : Forall (sized 2e7) (fft_fwd o (windowed noise))).
  { destruct (A (windowed noise) 61000) as [F _]; [lra|unfold windowed; rewrite map_length, seq_length; reflexivity|exact WS|]. eapply Forall_impl; [|exact F]. intros y Hy. apply (s_weak _ _ _ Hy). lra. }
  pose proof (shaped_sized _ XS (o_simd o) b cur B W HL HM) as SH. set (sh := shaped _ _ _) in *.
  destruct (A sh (1800 * b)) as [_ F]; [lra|unfold sh, shaped; rewrite map_length, seq_length; reflexivity|exact SH|].
  apply Forall_forall. intros y Hy. apply in_map_iff in Hy as (z & <- & Hz). rewrite Forall_forall in F. specialize (F z Hz).
  apply (s_mul _ _ (600 * (1800 * b)) 0.00391); try lra; [exact F|]. destruct (int_R 256) as [F6 E6]; [lia|]. apply (s_div _ _ 1 256); auto; try lra. all: try (rewrite E6; lra). apply s_int; [lia|apply IZR_le; lia].
Qed.
Lemma normaliser_low : forall n, (0 <= n < 160)%Z -> ff (normaliser n) /\ 0.4 <= R_of (normaliser n).
Proof.
  assert (K : forallb (fun k => let x := normaliser (Z.of_nat k) in valid_binary 24 128 x && is_finite_sf x && fle (flit 4 10) x) (seq 0 160) = true) by (vm_compute; reflexivity).
  intros n H. rewrite forallb_forall in K. specialize (K (Z.to_nat n)). rewrite Z2Nat.id in K by lia. cbv zeta in K.
  assert (I : In (Z.to_nat n) (seq 0 160)) by (apply in_seq; lia). apply K in I. apply andb_true_iff in I as [I C]. apply andb_true_iff in I as [I1 I2].
  assert (F : ff (normaliser n)) by (split; [exact I1|exact I2]). split; [exact F|].
  assert (Q : ff (flit 4 10) /\ 0.4 <= R_of (flit 4 10)) by (split; [apply ff_const; vm_compute; reflexivity|R_val (flit 4 10); lra]). destruct Q as [Q1 Q2].
  apply fle_true in C; auto. lra.
Qed.
Lemma sample_at_sized : forall c u i, 0 <= c -> Forall (sized c) u -> sized c (sample_at u i).
Proof. intros c u i C H. unfold sample_at. destruct (_ && _); [|apply (s_zero c C)]. apply (s_cell c u i C H). Qed.
Lemma overlap_sized : forall up uc n, Forall (sized 1e18) up -> Forall (sized (5000 * b)) uc -> (0 <= n < 160)%Z -> sized 4e18 (overlap_term up uc n).
Proof.
  intros up uc n P C Hn. unfold overlap_term. destruct (normaliser_low n Hn) as [NF NL].
  apply (s_div _ _ 1.5e18 0.4); auto; try lra. apply (s_add _ _ 1.1e18 (6000 * b)); try lra.
  - apply (s_mul _ _ 1 1e18); try lra; [apply window_sized; lia|apply sample_at_sized; [lra|exact P]].
  - apply (s_mul _ _ 1 (5000 * b)); try lra; [apply window_sized; lia|apply sample_at_sized; [lra|exact C]].
Qed.
End Wave.
