(* Spectral amplitude enhancement: definedness and what it changes. *)
From Coq Require Import ZArith List Bool Lia Reals Lra.
From Verif Require Import Res F32 MParms MAdaptive MUnvoiced MSynth SpecImbe SpecAdaptive SpecSum SpecEnh PRun PArr PFloat PSse PMoment PAdapt PImbe.
Import ListNotations.
Local Open Scope Z_scope.

(* ---- signs ---- *)
Lemma aux_sign : forall s m e l, let z := binary_round_aux 24 128 s m e l in z = S754_zero s \/ z = S754_infinity s \/ z = S754_nan \/ exists m' e', z = S754_finite s m' e'.
Proof.
  intros s m e l. cbv zeta. unfold binary_round_aux. destruct (shr_fexp 24 128 m e l) as [mrs e']. destruct (shr_fexp 24 128 (round_nearest_even (shr_m mrs) (loc_of_shr_record mrs)) e' loc_Exact) as [mrs'' e''].
  destruct (shr_m mrs''); auto. destruct (e'' <=? 128 - 24); eauto 6.
Qed.
Lemma nn_cases : forall x, not_negative x -> (exists s, x = S754_zero s) \/ x = S754_infinity false \/ x = S754_nan \/ exists m e, x = S754_finite false m e.
Proof. intros [s|[|]| |[|] m e] H; eauto; try discriminate H. eauto 10. Qed.
Lemma np_cases : forall x, not_positive x -> (exists s, x = S754_zero s) \/ x = S754_infinity true \/ x = S754_nan \/ exists m e, x = S754_finite true m e.
Proof. intros [s|[|]| |[|] m e] H; eauto; try discriminate H. eauto 10. Qed.
Lemma fmul_nn : forall x y, not_negative x -> not_negative y -> not_negative (fmul x y).
Proof.
  intros x y Hx Hy. destruct (nn_cases x Hx) as [[sx ->]|[->|[->|(mx & ex & ->)]]]; destruct (nn_cases y Hy) as [[sy ->]|[->|[->|(my & ey & ->)]]]; try reflexivity.
  unfold fmul, SFmul. cbn [xorb]. destruct (aux_sign false (Z.pos (mx * my)) (ex + ey) loc_Exact) as [-> |[-> |[-> |(m' & e' & -> )]]]; reflexivity.
Qed.
Lemma fmul_np : forall x y, not_negative x -> not_positive y -> not_positive (fmul x y).
Proof.
  intros x y Hx Hy. destruct (nn_cases x Hx) as [[sx ->]|[->|[->|(mx & ex & ->)]]]; destruct (np_cases y Hy) as [[sy ->]|[->|[->|(my & ey & ->)]]]; try reflexivity.
  unfold fmul, SFmul. cbn [xorb]. destruct (aux_sign true (Z.pos (mx * my)) (ex + ey) loc_Exact) as [-> |[-> |[-> |(m' & e' & -> )]]]; reflexivity.
Qed.
Lemma fsqrt_nn : forall x, not_negative (fsqrt x).
Proof.
  intros [s|[|]| |[|] m e]; try reflexivity. unfold fsqrt, SFsqrt. destruct (SFsqrt_core_binary 24 128 (Z.pos m) e) as [[mz ez] lz].
  destruct (aux_sign false mz ez lz) as [-> |[-> |[-> |(m' & e' & -> )]]]; reflexivity.
Qed.
Lemma fmul_fopp : forall x, fmul (fopp x) (fopp x) = fmul x x.
Proof. intros [[|]|[|]| |[|] m e]; reflexivity. Qed.
Lemma fmul_zero : forall g x, finite g -> zero x -> zero (fmul g x).
Proof. intros [s|s| |s m e] x Hg [s' ->]; try contradiction; eexists; reflexivity. Qed.
Lemma weight_nn : forall w, is_nan w \/ fle (flit 1 2) w = true /\ fle w (flit 12 10) = true -> not_negative w.
Proof. intros w [->|[H _]]; [reflexivity|]. destruct w as [s|[|]| |[|] m e]; try reflexivity; discriminate H. Qed.
Lemma correction_nn : forall a b, not_negative (correction a b).
Proof. intros a b. unfold correction. destruct (SFeqb b (S754_zero false)); [reflexivity|apply fsqrt_nn]. Qed.

(* ---- the band weight ---- *)
Definition band_value (L l : Z) (w0 rm0 rm1 c m : f32) : f32 := if fnonzero m then enh_band L l m (enh_weight m w0 rm0 rm1 c) else m.
Lemma not_lt_le : forall x y, is_nan_sf y = false -> flt x y = false -> x = S754_nan \/ fle y x = true.
Proof. intros x y N H. destruct (not_lt x y H) as [A|[A|A]]; [left; destruct x; try discriminate A; reflexivity|congruence|auto]. Qed.
Lemma band_weighted : forall L l w0 rm0 rm1 c m, weighted L l m (band_value L l w0 rm0 rm1 c m).
Proof.
  intros L l w0 rm0 rm1 c m. unfold band_value. split; [intros [s ->]; destruct s; reflexivity|]. generalize (enh_weight m w0 rm0 rm1 c). intros w. split.
  - intros H. destruct (fnonzero m); [|reflexivity]. unfold enh_band. destruct (Z.leb_spec (8 * l) L); [reflexivity|lia].
  - destruct (fnonzero m); [|auto]. unfold enh_band. destruct (8 * l <=? L); [auto|]. right.
    destruct (fgt w f_1p2) eqn:G; [exists f_1p2; split; [reflexivity|right; split; reflexivity]|].
    destruct (flt w fhalf) eqn:F; [exists fhalf; split; [reflexivity|right; split; reflexivity]|].
    exists w. split; [reflexivity|]. destruct (not_lt_le w fhalf eq_refl F) as [->|A]; [left; reflexivity|]. right. split; [exact A|].
    destruct (not_lt f_1p2 w G) as [N|[N|N]]; [discriminate N| |exact N]. destruct w; try discriminate N. discriminate A.
Qed.

Lemma wr_same : forall {A} (l : list A) i x, rd l i = Ok x -> wr l i x = Ok l.
Proof.
  intros A l i x H. apply rd_inv in H as [H N]. rewrite wr_ok by exact H. f_equal. revert N. generalize (Z.to_nat i). clear. intros n. revert l.
  induction n as [|n IH]; intros [|y l] H; try discriminate H; cbn in *; [congruence|f_equal; auto].
Qed.
Lemma nth_bands : forall {A} (a : list A) L l x, 1 <= l <= L -> rd a l = Ok x -> nth_error (bands a L) (Z.to_nat (l - 1)) = Some x.
Proof.
  intros A a L l x Hl H. apply rd_inv in H as [H N]. unfold bands. rewrite nth_error_firstn || idtac.
  destruct a as [|y a]; [cbn in H; lia|]. cbn [tl]. replace (Z.to_nat l) with (S (Z.to_nat (l - 1))) in N by lia. cbn [nth_error] in N.
  clear - N Hl. assert (K : (Z.to_nat (l - 1) < Z.to_nat L)%nat) by lia. revert K N. generalize (Z.to_nat (l - 1)), (Z.to_nat L). intros n m. revert n m. induction a as [|z a IH]; intros n m K N; [destruct n; discriminate N|].
  destruct m as [|m]; [lia|]. destruct n as [|n]; [exact N|]. cbn in *. apply IH; [lia|exact N].
Qed.
Lemma bands_length : forall {A} (a : list A) L, 0 <= L < Z.of_nat (length a) -> length (bands a L) = Z.to_nat L.
Proof. intros A a L H. unfold bands. rewrite firstn_length. destruct a; cbn [tl length] in *; lia. Qed.

Lemma cos_tab_ok : forall o L w0, 0 <= L <= 56 -> exists tab, enh_cos_tab o L w0 = Ok tab /\ filled_opt 57 1 (L + 1) tab.
Proof.
  intros o L w0 HL. unfold enh_cos_tab. cbv zeta.
  match goal with |- context [for_up 1 (L + 1) ?b ?s0] => destruct (for_up_ok (fun k '(tab, _, _) => filled_opt 57 1 k tab) b 1 (L + 1) s0) as ([[tab c] s] & E & F) end.
  - lia.
  - intros k [[tab c] s] Hk F. match goal with |- context [wr tab k (Some ?v)] => destruct (filled_opt_step 57 1 k tab v F) as (t' & W & F') end; [lia|lia|]. rewrite W. cbn [bind]. eexists. split; [reflexivity|exact F'].
  - split; [reflexivity|intros; lia].
  - exists tab. rewrite E. auto.
Qed.
Lemma bands_map : forall Ml L, 0 <= L < Z.of_nat (length Ml) -> bands Ml L = map (fun l => nth (Z.to_nat l) Ml fzero) (zfrom 1 (Z.to_nat L)).
Proof.
  intros Ml L HL. unfold bands. destruct Ml as [|y Ml]; [cbn in HL; lia|]. cbn [tl length] in *. assert (K : (Z.to_nat L <= length Ml)%nat) by lia. clear HL.
  change 1 with (Z.of_nat 1). rewrite zfrom_seq, map_map. transitivity (map (fun k => nth k (y :: Ml) fzero) (seq 1 (Z.to_nat L))); [|apply map_ext; intros k; now rewrite Nat2Z.id].
  rewrite <- seq_shift, map_map. cbn [nth]. revert K. generalize (Z.to_nat L). intros n. revert n. clear. induction Ml as [|z Ml IH]; intros [|n] K; cbn [length] in K; try reflexivity; [lia|].
  cbn [firstn seq map nth]. f_equal. rewrite (IH n) by lia. rewrite <- seq_shift, map_map. reflexivity.
Qed.
Lemma energy_bands : forall simd Ml L, 0 <= L < Z.of_nat (length Ml) ->
  add_all simd (map (fun l => fmul (nth (Z.to_nat l) Ml fzero) (nth (Z.to_nat l) Ml fzero)) (zfrom 1 (Z.to_nat L))) = energy_total simd (bands Ml L).
Proof. intros simd Ml L HL. unfold energy_total. rewrite bands_map by exact HL. rewrite map_map. reflexivity. Qed.
Lemma energies_ok : forall simd L Ml tab, 0 <= L < Z.of_nat (length Ml) -> L <= 56 -> filled_opt 57 1 (L + 1) tab ->
  exists rm1, enh_energies simd L Ml tab = Ok (energy_total simd (bands Ml L), rm1).
Proof.
  intros simd L Ml tab HL HL2 [_ F]. eexists.
  rewrite (energies_value simd L Ml tab (fun l => nth (Z.to_nat l) Ml fzero) (fun l => match rdi tab l with Ok c => c | UB _ => fzero end)); [rewrite energy_bands by exact HL; reflexivity|lia|].
  intros l Hl. split; [apply rd_nth; lia|]. destruct (F l ltac:(lia)) as [c Hc]. rewrite (rdi_some _ _ _ Hc). reflexivity.
Qed.
Lemma sum_sq_ok : forall simd L Ml, 0 <= L < Z.of_nat (length Ml) -> enh_sum simd L Ml = Ok (energy_total simd (bands Ml L)).
Proof.
  intros simd L Ml HL. rewrite (sum_value simd L Ml (fun l => nth (Z.to_nat l) Ml fzero)); [rewrite energy_bands by exact HL; reflexivity|lia|]. intros l Hl. apply rd_nth. lia.
Qed.

Theorem enhance_ok : forall o a cur t, length (p_Ml cur) = 57%nat -> 0 <= p_L cur <= 56 ->
  exists cur' xs, mbe_spectralAmpEnhance o a cur t = Ok (cur', mbe_setPreEnhRm0 a (energy_total (o_simd o) (bands (p_Ml cur) (p_L cur))) t) /\
  enhanced (o_simd o) cur cur' xs (correction (energy_total (o_simd o) (bands (p_Ml cur) (p_L cur))) (energy_total (o_simd o) xs)).
Proof.
  intros o a cur t HM HL. unfold mbe_spectralAmpEnhance. cbv zeta. set (L := p_L cur) in *.
  destruct (cos_tab_ok o L (p_w0 cur) HL) as (tab & -> & F). cbn [bind].
  destruct (energies_ok (o_simd o) L (p_Ml cur) tab ltac:(lia) ltac:(lia) F) as (rm1 & ->). cbn [bind]. set (rm0 := energy_total (o_simd o) (bands (p_Ml cur) L)) in *.
  pose (cv := fun k => match rdi tab k with Ok c => c | UB _ => fzero end).
  match goal with |- context [for_up 1 (L + 1) ?b (p_Ml cur)] =>
    destruct (update_loop (fun k m => band_value L k (p_w0 cur) rm0 rm1 (cv k) m) b 1 (L + 1) (p_Ml cur)) as (M1 & E1 & L1 & B1 & O1) end; [lia|lia|lia| |].
  - intros k s x Hk _ Hs _. rewrite Hs. cbn [bind]. unfold band_value. destruct (fnonzero x); [|rewrite (wr_same _ _ _ Hs); reflexivity].
    destruct F as [_ F]. destruct (F k Hk) as [c Hc]. unfold cv. rewrite (rdi_some _ _ _ Hc). reflexivity.
  - rewrite E1. cbn [bind]. rewrite sum_sq_ok by lia. cbn [bind]. rewrite scale_value by lia.
    match goal with |- context [for_up 1 (L + 1) (fun l Ml => m <- rd Ml l ;; wr Ml l (fmul ?g m)) M1] => change g with (correction rm0 (energy_total (o_simd o) (bands M1 L))) end.
    set (g := correction rm0 (energy_total (o_simd o) (bands M1 L))).
    destruct (update_loop (fun _ m => fmul g m) (fun l Ml => m <- rd Ml l ;; wr Ml l (fmul g m)) 1 (L + 1) M1) as (M2 & E2 & L2 & B2 & O2); [lia|lia|lia| |].
    + intros k s x _ _ Hs _. rewrite Hs. reflexivity.
    + rewrite E2. cbn [bind]. exists (set_Ml M2 cur), (bands M1 L). split; [reflexivity|]. fold g. unfold enhanced. cbv zeta. fold L. fold rm0.
      split; [reflexivity|]. split.
      { split; [change (length M2 = length (p_Ml cur)); lia|]. change (p_Ml (set_Ml M2 cur)) with M2. intros l Hl. destruct (Z_lt_ge_dec l 0) as [N|N].
        - rewrite !rd_oob by lia. reflexivity.
        - rewrite O2, O1 by lia. reflexivity. }
      split; [apply bands_length; lia|]. split; [reflexivity|]. intros l Hl. change (p_Ml (set_Ml M2 cur)) with M2.
      destruct (rd_ok (p_Ml cur) l) as [m Hm]; [lia|]. pose proof (B1 l m ltac:(lia) Hm) as H1. cbv beta in H1. exists m. eexists. split; [exact Hm|]. split; [apply nth_bands; [lia|exact H1]|].
      split; [apply band_weighted|]. apply (B2 l _ ltac:(lia) H1).
Qed.

(* consequences for one harmonic *)
Lemma enhanced_band : forall sm cur cur' xs g l m m', enhanced sm cur cur' xs g -> 1 <= l <= p_L cur -> rd (p_Ml cur) l = Ok m -> rd (p_Ml cur') l = Ok m' ->
  (8 * l <= p_L cur -> m' = fmul g m) /\ (finite g -> zero m -> zero m') /\ (not_negative m -> not_negative m') /\ (not_positive m -> not_positive m').
Proof.
  intros sm cur cur' xs g l m m' (_ & _ & _ & HG & H) Hl Hm Hm'. destruct (H l Hl) as (m0 & x & E & _ & (W1 & W2 & W3) & E'). rewrite Hm in E. injection E as <-. rewrite Hm' in E'. injection E' as ->.
  assert (G : not_negative g) by (rewrite HG; apply correction_nn).
  split; [intros K; rewrite (W2 K); reflexivity|]. split; [intros FG K; rewrite (W1 K); apply fmul_zero; assumption|]. split; intros K.
  - apply fmul_nn; [exact G|]. destruct W3 as [->|(w & -> & W)]; [exact K|]. apply fmul_nn; [apply weight_nn, W|exact K].
  - apply fmul_np; [exact G|]. destruct W3 as [->|(w & -> & W)]; [exact K|]. apply fmul_np; [apply weight_nn, W|exact K].
Qed.
(* a frame with one NaN amplitude: every amplitude of the frame becomes NaN, also the zero ones *)
Lemma enhanced_nan : forall sm cur cur' xs g l m', enhanced sm cur cur' xs g -> 1 <= l <= p_L cur -> g = S754_nan -> rd (p_Ml cur') l = Ok m' -> m' = S754_nan.
Proof.
  intros sm cur cur' xs g l m' (_ & _ & _ & _ & H) Hl -> Hm'. destruct (H l Hl) as (m0 & x & _ & _ & _ & E'). rewrite Hm' in E'. injection E' as ->. destruct x as [s|s| |s m e]; reflexivity.
Qed.

(* the same about a call *)
Lemma enhance_band : forall o a cur t cur' t', length (p_Ml cur) = 57%nat -> 0 <= p_L cur <= 56 -> mbe_spectralAmpEnhance o a cur t = Ok (cur', t') ->
  exists g, forall l m m', 1 <= l <= p_L cur -> rd (p_Ml cur) l = Ok m -> rd (p_Ml cur') l = Ok m' ->
  (8 * l <= p_L cur -> m' = fmul g m) /\ (finite g -> zero m -> zero m') /\ (not_negative m -> not_negative m') /\ (not_positive m -> not_positive m').
Proof.
  intros o a cur t cur' t' HM HL H. destruct (enhance_ok o a cur t HM HL) as (c & xs & E & EN). rewrite E in H. injection H as <- _.
  eexists. intros l m m' Hl Hm Hm'. exact (enhanced_band _ _ _ _ _ l m m' EN Hl Hm Hm').
Qed.
