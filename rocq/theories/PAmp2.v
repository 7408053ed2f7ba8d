(* Proofs about the decoded amplitudes of AMBE frames. *)
From Coq Require Import ZArith List Bool Lia.
From Verif Require Import Res F32 TabAmbe2450 TabAmbe2400 MFrame MParms MUnvoiced MSynth MImbe MAmbe SpecEcc SpecFrame SpecImbe SpecAmbe PBase PEcc PHam PLoop PRun PArr PFrameImbe PConv PSpeech PDec PImbe PExp2 PAmbeDec PAmbeDec2 SpecAmp PAmp.
Import ListNotations.
Local Open Scope Z_scope.

Lemma ambe_gm_val : forall T nd n5 n6 n7 n8 b3 b4, codebooks T nd n5 n6 n7 n8 -> 0 <= b3 < 512 -> 0 <= b4 < 128 ->
  exists Gm, ambe_gm T b3 b4 = Ok Gm /\ holds 9 1 9 (ambe_gain (row (at_PRBA24 T) b3) (row (at_PRBA58 T) b4)) Gm.
Proof.
  intros T nd n5 n6 n7 n8 b3 b4 C H3 H4. unfold ambe_gm.
  destruct (rd2_ok _ _ _ b3 0 (cb_24 _ _ _ _ _ _ C)) as [g2 E2]; [lia|lia|]. destruct (rd2_ok _ _ _ b3 1 (cb_24 _ _ _ _ _ _ C)) as [g3 E3]; [lia|lia|].
  destruct (rd2_ok _ _ _ b3 2 (cb_24 _ _ _ _ _ _ C)) as [g4 E4]; [lia|lia|].
  destruct (rd2_ok _ _ _ b4 0 (cb_58 _ _ _ _ _ _ C)) as [g5 E5]; [lia|lia|]. destruct (rd2_ok _ _ _ b4 1 (cb_58 _ _ _ _ _ _ C)) as [g6 E6]; [lia|lia|].
  destruct (rd2_ok _ _ _ b4 2 (cb_58 _ _ _ _ _ _ C)) as [g7 E7]; [lia|lia|]. destruct (rd2_ok _ _ _ b4 3 (cb_58 _ _ _ _ _ _ C)) as [g8 E8]; [lia|lia|].
  rewrite E2, E3, E4, E5, E6, E7, E8. cbn [bind]. eexists. split; [reflexivity|]. split; [reflexivity|]. intros i Hi. unfold ambe_gain, entry, row.
  assert (i = 1 \/ i = 2 \/ i = 3 \/ i = 4 \/ i = 5 \/ i = 6 \/ i = 7 \/ i = 8) as [->|[->|[->|[->|[->|[->|[->| -> ]]]]]]] by lia.
  - reflexivity.
  - change (2 =? 1) with false. change (2 <=? 4) with true. cbv iota. change (2 - 2) with 0. now rewrite (rd2_nth _ _ _ _ _ E2).
  - change (3 =? 1) with false. change (3 <=? 4) with true. cbv iota. change (3 - 2) with 1. now rewrite (rd2_nth _ _ _ _ _ E3).
  - change (4 =? 1) with false. change (4 <=? 4) with true. cbv iota. change (4 - 2) with 2. now rewrite (rd2_nth _ _ _ _ _ E4).
  - change (5 =? 1) with false. change (5 <=? 4) with false. cbv iota. change (5 - 5) with 0. now rewrite (rd2_nth _ _ _ _ _ E5).
  - change (6 =? 1) with false. change (6 <=? 4) with false. cbv iota. change (6 - 5) with 1. now rewrite (rd2_nth _ _ _ _ _ E6).
  - change (7 =? 1) with false. change (7 <=? 4) with false. cbv iota. change (7 - 5) with 2. now rewrite (rd2_nth _ _ _ _ _ E7).
  - change (8 =? 1) with false. change (8 <=? 4) with false. cbv iota. change (8 - 5) with 3. now rewrite (rd2_nth _ _ _ _ _ E8).
Qed.
Lemma ambe_ri_val : forall o Gm g, holds 9 1 9 g Gm -> exists Ri, ambe_ri o Gm = Ok Ri /\ holds 9 1 9 (idct o 8 g) Ri.
Proof.
  intros o Gm g [_ F]. unfold ambe_ri.
  match goal with |- exists V, for_up _ _ ?f ?s0 = _ /\ _ => destruct (for_up_ok (fun i s => holds 9 1 i (idct o 8 g) s) f 1 9 s0) as (G & E & P) end;
    [lia| |split; [reflexivity|intros; lia]|exists G; auto].
  intros i R Hi FR. rewrite (fsum_loop 8 (fun k => fmul (fmul (f_of_Z (if k =? 1 then 1 else 2)) (g k)) (dct_cosine o 8 k i))).
  - cbn [bind]. apply holds_step; [exact FR|lia|lia|]. with_strategy transparent [idct] unfold idct. reflexivity.
  - lia.
  - intros m s Hm. rewrite (rdi_some _ _ _ (F m ltac:(lia))). reflexivity.
Qed.
(* coefficient arrays in which the cells selected by P hold c *)
Definition put (c : Z -> Z -> f32) (P : Z -> Z -> Prop) (C : list (list (option f32))) : Prop :=
  shape 5 18 C /\ forall i k, P i k -> rd2 C i k = Ok (Some (c i k)).
Lemma put_step : forall c P C i k x, put c P C -> 0 <= i < 5 -> 0 <= k < 18 -> x = c i k ->
  exists C', wr2 C i k (Some x) = Ok C' /\ put c (fun i' k' => P i' k' \/ i' = i /\ k' = k) C'.
Proof.
  intros c P C i k x [S W] Hi Hk ->. destruct (wr2_ok 5 18 C i k (Some (c i k)) S) as (C' & E & S' & SM & OT); [lia|lia|]. exists C'. split; [exact E|]. split; [exact S'|].
  intros i' k' H. destruct (Z.eq_dec i' i) as [->|N1]; [destruct (Z.eq_dec k' k) as [->|N2]; [exact SM|]|].
  - rewrite OT by lia. apply W. destruct H as [H|[_ H]]; [exact H|contradiction].
  - rewrite OT by lia. apply W. destruct H as [H|[H _]]; [exact H|contradiction].
Qed.
Lemma put_weak : forall c (P Q : Z -> Z -> Prop) C, (forall i k, Q i k -> P i k) -> put c P C -> put c Q C.
Proof. intros c P Q C H [S W]. split; [exact S|auto]. Qed.
Lemma half_eq : flit 1 2 = fhalf.
Proof. vm_compute. reflexivity. Qed.
Lemma root_eq : half_root_half = rconst.
Proof. vm_compute. reflexivity. Qed.
Lemma ambe_cik12_val : forall o v h Ri, holds 9 1 9 (idct o 8 v) Ri -> exists C, for_up 1 5 (ambe_cik12 Ri) (fresh2 5 18) = Ok C /\
  put (ambe_coefficient o v h) (fun i k => 1 <= i <= 4 /\ 1 <= k <= 2) C.
Proof.
  intros o v h Ri [_ F]. destruct (for_up_ok (fun n C => put (ambe_coefficient o v h) (fun i k => 1 <= i < n /\ 1 <= k <= 2) C) (ambe_cik12 Ri) 1 5 (fresh2 5 18)) as (C & E & W).
  - lia.
  - intros n C Hn W. unfold ambe_cik12. rewrite (rdi_some _ _ _ (F (2 * n - 1) ltac:(lia))), (rdi_some _ _ _ (F (2 * n) ltac:(lia))). cbn [bind].
    destruct (put_step _ _ C n 1 (fmul fhalf (fadd (idct o 8 v (2 * n - 1)) (idct o 8 v (2 * n)))) W) as (C1 & E1 & W1); [lia|lia|unfold ambe_coefficient; change (1 =? 1) with true; cbv iota zeta; rewrite half_eq; reflexivity|]. rewrite E1. cbn [bind].
    destruct (put_step _ _ C1 n 2 (fmul rconst (fsub (idct o 8 v (2 * n - 1)) (idct o 8 v (2 * n)))) W1) as (C2 & E2 & W2); [lia|lia| |exists C2; split; [exact E2|]].
    + unfold ambe_coefficient. change (2 =? 1) with false. change (2 =? 2) with true. cbv iota zeta. rewrite root_eq. reflexivity.
    + eapply put_weak; [|exact W2]. cbv beta. intros i k Hik. lia.
  - split; [exact (shape_fresh 5 18)|]. intros i k H. lia.
  - exists C. split; [exact E|]. eapply put_weak; [|exact W]. cbv beta. intros. lia.
Qed.
Lemma ambe_hoc_val : forall o v h tab n b i ji C P, shape n 4 tab -> 0 <= b < Z.of_nat n -> 1 <= i <= 4 -> 2 <= ji <= 17 -> h i = row tab b ->
  put (ambe_coefficient o v h) P C ->
  exists C', ambe_hoc tab b i ji C = Ok C' /\ put (ambe_coefficient o v h) (fun i' k' => P i' k' \/ i' = i /\ 3 <= k' <= ji) C'.
Proof.
  intros o v h tab n b i ji C P S Hb Hi Hj Hh W. unfold ambe_hoc.
  match goal with |- exists V, for_up _ _ ?f ?s0 = _ /\ _ => destruct (for_up_ok (fun m C => put (ambe_coefficient o v h) (fun i' k' => P i' k' \/ i' = i /\ 3 <= k' < m) C) f 3 (ji + 1) s0) as (C' & E & W') end.
  - lia.
  - intros k C1 Hk W1.
    assert (X : exists C2, wr2 C1 i k (Some (ambe_coefficient o v h i k)) = Ok C2 /\ put (ambe_coefficient o v h) (fun i' k' => P i' k' \/ i' = i /\ 3 <= k' < k + 1) C2).
    { destruct (put_step _ _ C1 i k (ambe_coefficient o v h i k) W1) as (C2 & E2 & W2); [lia|lia|reflexivity|]. exists C2. split; [exact E2|].
      eapply put_weak; [|exact W2]. cbv beta. intros i' k' [H|[H1 H2]]; [auto|]. destruct (Z.eq_dec k' k); [right; auto|left; right; lia]. }
    assert (V : ambe_coefficient o v h i k = if k <=? 6 then nth (Z.to_nat (k - 3)) (row tab b) fzero else fzero).
    { unfold ambe_coefficient. cbv zeta. destruct (Z.eqb_spec k 1); [lia|]. destruct (Z.eqb_spec k 2); [lia|]. rewrite Hh. reflexivity. }
    destruct (Z.ltb_spec 6 k).
    + destruct (Z.leb_spec k 6); [lia|]. rewrite V in X. exact X.
    + destruct (Z.leb_spec k 6); [|lia]. destruct (rd2_ok _ _ tab b (k - 3) S) as [x Hx]; [lia|lia|]. rewrite Hx. cbn [bind].
      unfold row in V. rewrite (rd2_nth _ _ _ _ _ Hx) in V. rewrite V in X. exact X.
  - eapply put_weak; [|exact W]. cbv beta. intros i' k' [H|H]; [exact H|lia].
  - exists C'. split; [exact E|]. eapply put_weak; [|exact W']. cbv beta. intros i' k' [H|H]; [auto|right; lia].
Qed.
Lemma residuals_size : forall o j c n L, (forall i, 1 <= i <= 4 -> 2 <= j i <= 17) -> j 1 + j 2 + j 3 + j 4 = L -> 0 <= n <= 4 ->
  Z.of_nat (length (residuals o n j c)) <= L - (if n <? 4 then j (n + 1) else 0) /\ (n = 4 -> Z.of_nat (length (residuals o n j c)) = L).
Proof.
  intros o j c n L HJ HS Hn. rewrite residuals_length. pose proof (HJ 1 ltac:(lia)). pose proof (HJ 2 ltac:(lia)). pose proof (HJ 3 ltac:(lia)). pose proof (HJ 4 ltac:(lia)).
  assert (n = 0 \/ n = 1 \/ n = 2 \/ n = 3 \/ n = 4) as [->|[->|[->|[->| -> ]]]] by lia; cbn [Z.ltb Z.compare Pos.compare Pos.compare_cont Z.add Pos.add Pos.succ];
  match goal with |- context [upto ?n] => let u := eval compute in (upto n) in change (upto n) with u end; cbn [fold_right]; lia.
Qed.
Lemma ambe_tl_val : forall o Ji c C L, (forall i, 1 <= i <= 4 -> 2 <= Ji i <= 17) -> Ji 1 + Ji 2 + Ji 3 + Ji 4 = L -> L <= 56 ->
  put c (fun i k => 1 <= i <= 4 /\ 1 <= k <= Ji i) C -> exists Tl, ambe_tl o Ji C = Ok Tl /\ length Tl = 57%nat /\
  forall l, 1 <= l <= L -> rd Tl l = Ok (nth (Z.to_nat (l - 1)) (residuals o 4 Ji c) fzero).
Proof.
  intros o Ji c C L HJ HS HL [S P]. unfold ambe_tl.
  match goal with |- exists V, bind (for_up _ _ ?f ?s0) _ = _ /\ _ => destruct (for_up_ok (fun i (s : list f32 * Z) =>
      laid (residuals o (i - 1) Ji c) s) f 1 5 s0) as ([T m] & E & Q) end.
  - lia.
  - intros i [T l] Hi Q. cbv zeta. pose proof (HJ i ltac:(lia)) as J. destruct (residuals_size o Ji c (i - 1) L HJ HS ltac:(lia)) as [BL _].
    replace (i - 1 + 1) with i in BL by lia. destruct (Z.ltb_spec (i - 1) 4) as [_|]; [|lia].
    match goal with |- exists V, for_up _ _ ?f ?s0 = _ /\ _ => destruct (for_up_ok (fun j (s : list f32 * Z) =>
      laid (residuals o (i - 1) Ji c ++ map (idct o (Ji i) (c i)) (upto (j - 1))) s) f 1 (Ji i + 1) s0) as ([T2 m2] & E & P2) end.
    + lia.
    + intros j [T3 m3] Hj P3.
      rewrite (fsum_loop (Ji i) (fun k => fmul (fmul (f_of_Z (if k =? 1 then 1 else 2)) (c i k)) (dct_cosine o (Ji i) k j))).
      * cbn [bind]. destruct (laid_step _ T3 m3 (idct o (Ji i) (c i) j) P3) as (T4 & W4 & P4).
        { rewrite app_length, map_length, upto_length. lia. }
        with_strategy transparent [idct] unfold idct in W4 at 1. rewrite W4. cbn [bind]. eexists. split; [reflexivity|]. rewrite <- app_assoc in P4. rewrite <- map_upto in P4 by lia.
        replace (j + 1 - 1) with j by lia. exact P4.
      * lia.
      * intros k s Hk. rewrite (rdi2_some _ _ _ _ (P i k ltac:(lia))). reflexivity.
    + rewrite upto_nil by lia. cbn [map]. rewrite app_nil_r. exact Q.
    + exists (T2, m2). split; [exact E|]. replace (i + 1 - 1) with i by lia. unfold residuals. rewrite flat_upto by lia.
      replace (Ji i + 1 - 1) with (Ji i) in P2 by lia. exact P2.
  - split; [cbn; lia|]. split; reflexivity.
  - rewrite E. cbn [bind]. exists T. split; [reflexivity|]. change (5 - 1) with 4 in Q. split; [exact (laid_length _ _ Q)|].
    intros l Hl. apply (laid_rd _ (T, m)); [exact Q|]. destruct (residuals_size o Ji c 4 L HJ HS ltac:(lia)) as [_ ->]; [exact Hl|reflexivity].
Qed.
Lemma residuals_ext : forall o n j j' c, (forall i, 1 <= i <= n -> j i = j' i) -> residuals o n j c = residuals o n j' c.
Proof.
  intros o n j j' c H. unfold residuals. assert (K : forall l, (forall i, In i l -> 1 <= i <= n) -> flat_map (fun i => map (idct o (j i) (c i)) (upto (j i))) l = flat_map (fun i => map (idct o (j' i) (c i)) (upto (j' i))) l).
  { induction l as [|x l IH]; intros HI; [reflexivity|]. cbn [flat_map]. rewrite (H x) by (apply HI; left; reflexivity). rewrite IH; [reflexivity|]. intros i Hi. apply HI. right. exact Hi. }
  apply K. intros i Hi. unfold upto in Hi. apply in_map_iff in Hi as (k & <- & Hk). apply in_seq in Hk. lia.
Qed.

(* the amplitudes up to the prediction, with the residuals *)
Lemma amplitudes_val : forall o T nd n5 n6 n7 n8 u L b2 b3 b4 b5 b6 b7 b8 cur prev h, codebooks T nd n5 n6 n7 n8 -> 9 <= L <= 56 ->
  0 <= b2 < Z.of_nat nd -> 0 <= b3 < 512 -> 0 <= b4 < 128 -> 0 <= b5 < Z.of_nat n5 -> 0 <= b6 < Z.of_nat n6 -> 0 <= b7 < Z.of_nat n7 -> 0 <= b8 < Z.of_nat n8 ->
  h 1 = row (at_HOC5 T) b5 -> h 2 = row (at_HOC6 T) b6 -> h 3 = row (at_HOC7 T) b7 -> h 4 = row (at_HOC8 T) b8 ->
  exists Tl, length Tl = 57%nat /\
    (forall l, 1 <= l <= L -> rd Tl l = Ok (ambe_residual o (fun i => entry 0 (row (at_Lmprbl T) L) (i - 1)) (ambe_gain (row (at_PRBA24 T) b3) (row (at_PRBA58 T) b4)) h l)) /\
    ambe_amplitudes o T u L b2 b3 b4 b5 b6 b7 b8 cur prev =
      (prev' <- ambe_extend_prev L prev ;;
       cur' <- ambe_predict o u L prev' Tl (set_gamma (fadd (nth (Z.to_nat b2) (at_Dg T) fzero) (fmul fhalf (p_gamma prev))) cur) ;;
       Ok (cur', prev')).
Proof.
  intros o T nd n5 n6 n7 n8 u L b2 b3 b4 b5 b6 b7 b8 cur prev h CB HL H2 H3 H4 H5 H6 H7 H8 R5 R6 R7 R8. unfold ambe_amplitudes.
  rewrite (rd_nth (at_Dg T) b2 fzero) by (rewrite (cb_dg _ _ _ _ _ _ CB); exact H2). cbn [bind]. cbv zeta.
  destruct (ambe_gm_val T _ _ _ _ _ b3 b4 CB H3 H4) as (Gm & -> & FG). cbn [bind].
  set (v := ambe_gain (row (at_PRBA24 T) b3) (row (at_PRBA58 T) b4)) in *. clearbody v.
  destruct (ambe_ri_val o Gm v FG) as (Ri & -> & FR). cbn [bind].
  destruct (ambe_cik12_val o v h Ri FR) as (C0 & -> & W0). cbn [bind].
  destruct (cb_j _ _ _ _ _ _ CB L HL) as (j1 & j2 & j3 & j4 & E1 & E2 & E3 & E4 & J1 & J2 & J3 & J4 & JS). rewrite E1, E2, E3, E4. cbn [bind].
  destruct (ambe_hoc_val o v h _ _ b5 1 j1 C0 _ (cb_5 _ _ _ _ _ _ CB) H5 ltac:(lia) J1 R5 W0) as (C1 & -> & W1). cbn [bind].
  destruct (ambe_hoc_val o v h _ _ b6 2 j2 C1 _ (cb_6 _ _ _ _ _ _ CB) H6 ltac:(lia) J2 R6 W1) as (C2 & -> & W2). cbn [bind].
  destruct (ambe_hoc_val o v h _ _ b7 3 j3 C2 _ (cb_7 _ _ _ _ _ _ CB) H7 ltac:(lia) J3 R7 W2) as (C3 & -> & W3). cbn [bind].
  destruct (ambe_hoc_val o v h _ _ b8 4 j4 C3 _ (cb_8 _ _ _ _ _ _ CB) H8 ltac:(lia) J4 R8 W3) as (C4 & -> & W4). cbn [bind].
  match goal with |- context [ambe_tl o ?J C4] => set (Ji := J) end.
  assert (EJ : forall i, 1 <= i <= 4 -> Ji i = entry 0 (row (at_Lmprbl T) L) (i - 1)).
  { intros i Hi. unfold entry, row. assert (i = 1 \/ i = 2 \/ i = 3 \/ i = 4) as [->|[->|[->| -> ]]] by lia; symmetry; unfold Ji;
    [exact (rd2_nth _ _ _ _ _ E1)|exact (rd2_nth _ _ _ _ _ E2)|exact (rd2_nth _ _ _ _ _ E3)|exact (rd2_nth _ _ _ _ _ E4)]. }
  destruct (ambe_tl_val o Ji (ambe_coefficient o v h) C4 L) as (Tl & -> & LT & VT).
  - intros i Hi. assert (i = 1 \/ i = 2 \/ i = 3 \/ i = 4) as [->|[->|[->| -> ]]] by lia; cbn; lia.
  - cbn. lia.
  - lia.
  - eapply put_weak; [|exact W4]. cbv beta. intros i k [Hi Hk]. assert (i = 1 \/ i = 2 \/ i = 3 \/ i = 4) as [->|[->|[->| -> ]]] by lia; cbn in Hk; lia.
  - cbn [bind]. exists Tl. split; [exact LT|]. split; [|reflexivity]. intros l Hl. rewrite (VT l Hl). unfold ambe_residual. rewrite (residuals_ext o 4 Ji _ _ EJ). reflexivity.
Qed.

(* ---- prediction ---- *)
Lemma ambe_past_val : forall L prev prev' k, ambe_extend_prev L prev = Ok prev' -> 9 <= L -> wf_parms prev -> 0 <= p_L prev <= 56 -> 0 <= k <= 56 ->
  rd (p_log2Ml prev') k = Ok (past prev L (Z.max 1 k)).
Proof.
  intros L prev prev' k H HL W HP Hk. unfold ambe_extend_prev in H. apply bind_inv in H as (p & E & H). apply extend_prev_extended in E as [_ X].
  apply bind_inv in H as (g & G & H). apply bind_inv in H as (lg & W1 & H). apply bind_inv in H as (m & M & H). apply bind_inv in H as (ml & W2 & H).
  injection H as <-. fields. rewrite (rd_wr_any _ _ _ _ _ W1). destruct W as (_ & _ & LG & _).
  destruct (Z.eqb_spec k 0) as [->|N].
  - change (Z.max 1 0) with 1. rewrite <- G. apply past_val; [exact X|lia|exact LG|lia|lia].
  - replace (Z.max 1 k) with k by lia. apply past_val; [exact X|lia|exact LG|lia|lia].
Qed.
Lemma ambe_predict_val : forall o u L prev Tl cur a r v, 0 <= p_L prev -> prev_ok L prev -> wf_parms cur -> 9 <= L <= 56 ->
  (forall k, 0 <= k <= 56 -> rd (p_log2Ml prev) k = Ok (a k)) -> (forall l, 1 <= l <= L -> rd Tl l = Ok (r l)) -> (forall l, 1 <= l <= L -> rd (p_Vl cur) l = Ok (v l)) ->
  let G := fsub (fsub (p_gamma cur) (fmul (flit 1 2) (log2f o (f_of_Z L)))) (fdiv (fsum L r) (f_of_Z L)) in
  let g := fun l => fadd (predicted f_065 (p_L prev) L a r l) G in
  exists cur', ambe_predict o u L prev Tl cur = Ok cur' /\ forall l, 1 <= l <= L ->
    rd (p_log2Ml cur') l = Ok (g l) /\ rd (p_Ml cur') l = Ok (if v l =? 1 then exp2f o (g l) else fmul u (exp2f o (g l))).
Proof.
  intros o u L prev Tl cur a r v H0 P W HL A T V G g. unfold ambe_predict.
  assert (S : ambe_sum43 L prev = Ok (fmul (fdiv f_065 (f_of_Z L)) (fsum L (fun l =>
      fadd (fmul (fsub (flit 1 1) (fraction (position (p_L prev) L l))) (a (whole_part (position (p_L prev) L l)))) (fmul (fraction (position (p_L prev) L l)) (a (whole_part (position (p_L prev) L l) + 1))))))).
  { unfold ambe_sum43. rewrite (fsum_loop L (fun l =>
      fadd (fmul (fsub (flit 1 1) (fraction (position (p_L prev) L l))) (a (whole_part (position (p_L prev) L l)))) (fmul (fraction (position (p_L prev) L l)) (a (whole_part (position (p_L prev) L l) + 1)))));
      [reflexivity|lia|]. intros l s Hl. destruct (history_val prev L a l H0 P HL Hl A) as (I & R1 & R2). rewrite I. cbn [bind]. rewrite R1. cbn [bind]. rewrite R2. reflexivity. }
  rewrite S. cbn [bind].
  assert (B : ambe_big_gamma o L (p_gamma cur) Tl = Ok G).
  { unfold ambe_big_gamma. rewrite (fsum_loop L r); [reflexivity|lia|]. intros l s Hl. rewrite (T l Hl). reflexivity. }
  rewrite B. cbn [bind].
  match goal with |- exists p, for_up _ _ ?b ?s0 = _ /\ _ =>
    destruct (for_up_ok (fun k x => length (p_Ml x) = 57%nat /\ length (p_log2Ml x) = 57%nat /\ p_Vl x = p_Vl cur /\ forall l, 1 <= l < k ->
      rd (p_log2Ml x) l = Ok (g l) /\ rd (p_Ml x) l = Ok (if v l =? 1 then exp2f o (g l) else fmul u (exp2f o (g l)))) b 1 (L + 1) s0) as (c2 & E & _ & _ & _ & Q) end;
    [| | |exists c2; split; [exact E|intros l Hl; apply Q; lia]].
  - lia.
  - intros l x Hl (LM & LG & LV & K). destruct (history_val prev L a l H0 P HL ltac:(lia) A) as (I & R1 & R2).
    unfold ambe_log2. rewrite I. cbn [bind]. rewrite R1. cbn [bind]. rewrite R2. cbn [bind]. rewrite T by lia. cbn [bind].
    match goal with |- context [wr (p_log2Ml x) l ?y] => change y with (g l) end. clearbody g.
    pose proof (wr_ok (p_log2Ml x) l (g l) ltac:(lia)) as W1. rewrite W1. cbn [bind]. rewrite LV, (V l) by lia. cbn [bind].
    match goal with |- context [wr (p_Ml x) l ?y] => pose proof (wr_ok (p_Ml x) l y ltac:(lia)) as W2 end.
    rewrite W2. cbn [bind]. eexists. split; [reflexivity|]. fields. rewrite !set_nth_length. split; [exact LM|]. split; [exact LG|]. split; [exact LV|].
    intros i Hi. rewrite (rd_wr_any _ _ _ _ _ W1), (rd_wr_any _ _ _ _ _ W2). destruct (Z.eqb_spec i l) as [->|N]; [split; reflexivity|]. apply K. lia.
  - destruct W as (_ & W1 & W2 & _). split; [exact W1|]. split; [exact W2|]. split; [reflexivity|]. intros; lia.
Qed.

(* ---- the two decoders ---- *)
Lemma ambe_end : forall o u L prev prev' Tl cur cur' v j gv h, usable_history L prev -> 9 <= L <= 56 -> wf_parms cur ->
  ambe_extend_prev L prev = Ok prev' -> ambe_predict o u L prev' Tl cur = Ok cur' -> (forall l, 1 <= l <= L -> rd (p_Vl cur) l = Ok (v l)) ->
  (forall l, 1 <= l <= L -> rd Tl l = Ok (ambe_residual o j gv h l)) -> u = fdiv (d2f (dlit 2046 10000)) (fsqrt (p_w0 cur)) ->
  forall l, 1 <= l <= L -> let g := ambe_log_amplitude o L j gv h (p_gamma cur) prev l in
    rd (p_log2Ml cur') l = Ok g /\ rd (p_Ml cur') l = Ok (ambe_amplitude o (p_w0 cur) (v l) g).
Proof.
  intros o u L prev prev' Tl cur cur' v j gv h [WP HU] HL WC HE HP HV HT Hu l Hl g.
  pose proof (ambe_past_val L prev prev') as PV. specialize (fun k => PV k HE ltac:(lia) WP ltac:(lia)).
  apply ambe_extend_effect in HE as [B SL]. assert (HL1 : p_L prev' = p_L prev) by (rewrite B; reflexivity).
  destruct (ambe_predict_val o u L prev' Tl cur (fun k => past prev L (Z.max 1 k)) (ambe_residual o j gv h) v) as (c2 & E & Q).
  - rewrite HL1. lia.
  - split; [eapply but_logs_wf; eassumption|]. rewrite HL1. destruct HU as [HU|[HU [HU2|HU2]]]; [left; exact HU|right; split; [exact HU|rewrite HU2; reflexivity]|right; split; [exact HU|rewrite HU2; reflexivity]].
  - exact WC.
  - exact HL.
  - exact PV.
  - exact HT.
  - exact HV.
  - rewrite HP in E. injection E as <-. specialize (Q l Hl). rewrite HL1, Hu in Q. exact Q.
Qed.
Lemma pitch2450_scale : forall d b0 cur c u, ambe2450_pitch d b0 cur = Ok (c, u) -> u = fdiv (d2f (dlit 2046 10000)) (fsqrt (p_w0 c)).
Proof.
  intros d b0 cur c u H. unfold ambe2450_pitch in H. cbv zeta in H. apply bind_inv in H as ([[c0 f0] L] & _ & H). apply bind_inv in H as (b1 & _ & H).
  apply bind_inv in H as (V & _ & H). injection H as <- <-. reflexivity.
Qed.
Lemma pitch2400_scale : forall o d b0 cur c u, ambe2400_pitch o d b0 cur = Ok (c, u) -> u = fdiv (d2f (dlit 2046 10000)) (fsqrt (p_w0 c)).
Proof.
  intros o d b0 cur c u H. unfold ambe2400_pitch in H. cbv zeta in H. apply bind_inv in H as (lf & _ & H). apply bind_inv in H as (L & _ & H). apply bind_inv in H as (b1 & _ & H).
  apply bind_inv in H as (V & _ & H). injection H as <- <-. reflexivity.
Qed.
Lemma amplitudes2450 : forall o d cur prev e bad cur' prev', is_bits 49 d -> wf_parms cur -> ~ (tone2450 d /\ e < 6) -> ~ erasure2450 (pitch2450 d) ->
  usable_history (harmonics2450 (pitch2450 d)) prev -> mbe_decodeAmbe2450ParmsInternal o d cur prev e = Ok (bad, cur', prev') ->
  forall l, 1 <= l <= harmonics2450 (pitch2450 d) -> let g := log_amplitude2450 o d prev l in
    rd (p_log2Ml cur') l = Ok g /\ rd (p_Ml cur') l = Ok (ambe_amplitude o (w0_2450 (pitch2450 d)) (voicing2450 d l) g).
Proof.
  intros o d cur prev e bad cur' prev' Hd WC NT NE HU H l Hl.
  assert (HV : voice2450 (pitch2450 d)) by (pose proof (pitch2450_range d Hd); unfold erasure2450 in NE; unfold voice2450; lia).
  unfold log_amplitude2450. set (L := harmonics2450 (pitch2450 d)) in *.
  unfold mbe_decodeAmbe2450ParmsInternal in H. destruct (tone_verified_ok d Hd) as (tv & Etv & HT). rewrite Etv in H. cbn [bind] in H. cbv zeta in H.
  rewrite (bits_msb_ok 49) in H by (exact Hd || (cbn; lia) || positions). cbn [bind] in H. fold (pitch2450 d) in H.
  destruct (tv && (e <? 6)) eqn:ET.
  { exfalso. apply NT. apply andb_true_iff in ET as [A B]. split; [apply HT, A|lia]. }
  destruct ((120 <=? pitch2450 d) && (pitch2450 d <=? 123)) eqn:E1; [unfold voice2450 in HV; lia|].
  destruct ((pitch2450 d =? 126) || (pitch2450 d =? 127)) eqn:E2; [unfold voice2450 in HV; lia|].
  destruct (ambe2450_pitch_ok d (set_repeat (p_repeat prev) cur) Hd ltac:(apply WC) HV) as (V & u & L1 & V1 & V2 & EP). fields. rewrite EP in H. apply pitch2450_scale in EP. cbn [bind] in H. fold L in V1, V2, EP, H.
  do 7 (rewrite (bits_msb_ok 49) in H by (exact Hd || (cbn; lia) || positions); cbn [bind] in H).
  destruct (amplitudes_val o tables2450 32 32 16 16 8 u L (bits_at d [8; 9; 10; 11; 36]) (bits_at d [12; 13; 14; 15; 16; 17; 18; 19; 40]) (bits_at d [20; 21; 22; 23; 41; 42; 43])
    (bits_at d [24; 25; 26; 27; 44]) (bits_at d [28; 29; 30; 45]) (bits_at d [31; 32; 33; 46]) (bits_at d [34; 47; 48]) (set_Vl V (set_L L (set_w0 (w0_2450 (pitch2450 d)) (set_repeat (p_repeat prev) cur)))) prev
    (higher2450 d) codebooks2450 (harmonics2450_range _ HV)) as (Tl & L2 & VT & EA);
    try (match goal with |- 0 <= bits_at d ?ps < _ => exact (bits_at_range 49 d ps Hd ltac:(positions)) end); try reflexivity.
  fields. rewrite EA in H. clear EA.
  change (nth (Z.to_nat (bits_at d [8; 9; 10; 11; 36])) (at_Dg tables2450) fzero) with (gain2450 d) in H.
  apply bind_inv in H as ([c p] & H & K). injection K as _ -> ->. apply bind_inv in H as (p1 & HE & H). apply bind_inv in H as (c1 & HP & H). injection H as -> ->.
  rewrite <- half_eq in HP. match type of HP with ambe_predict _ _ _ _ _ ?c = _ => refine (ambe_end o u L prev prev' Tl c cur' (voicing2450 d) (block2450 L) (gain_vector2450 d) (higher2450 d) HU _ _ HE HP V1 VT EP l Hl) end.
  - exact (harmonics2450_range _ HV).
  - destruct WC as (W1 & W). split; [exact L1|exact W].
Qed.
Lemma amplitudes2400 : forall o d cur prev bad cur' prev', is_bits 49 d -> wf_parms cur -> pitch2400 d < 126 -> exp2_close o (exponent2400 (pitch2400 d)) ->
  usable_history (harmonics2400 (pitch2400 d)) prev -> mbe_decodeAmbe2400Parms o d cur prev = Ok (bad, cur', prev') ->
  forall l, 1 <= l <= harmonics2400 (pitch2400 d) -> let g := log_amplitude2400 o d prev l in
    rd (p_log2Ml cur') l = Ok g /\ rd (p_Ml cur') l = Ok (ambe_amplitude o (radians (exp2f o (exponent2400 (pitch2400 d)))) (voicing2400 o d l) g).
Proof.
  intros o d cur prev bad cur' prev' Hd WC Hb HX HU H l Hl. pose proof (harmonics2400_range d Hd Hb) as HL.
  unfold log_amplitude2400. set (L := harmonics2400 (pitch2400 d)) in *.
  unfold mbe_decodeAmbe2400Parms in H. cbv zeta in H. pose proof (pitch2400_range d Hd) as R0.
  rewrite (bits_msb_ok 49) in H by (exact Hd || (cbn; lia) || positions). cbn [bind] in H. fold (pitch2400 d) in H. rewrite land126 in H by exact R0.
  destruct (Z.leb_spec 126 (pitch2400 d)); [lia|].
  destruct (ambe2400_pitch_ok o d (set_repeat (p_repeat prev) cur) Hd ltac:(apply WC) Hb HX) as (V & u & L1 & V1 & V2 & EP). fields. rewrite EP in H. apply pitch2400_scale in EP. cbn [bind] in H. fold L in V1, V2, EP, H.
  do 7 (rewrite (bits_msb_ok 49) in H by (exact Hd || (cbn; lia) || positions); cbn [bind] in H).
  destruct (amplitudes_val o tables2400 64 16 16 16 16 u L (bits_at d [6; 7; 8; 9; 42; 43]) (bits_at d [10; 11; 12; 13; 14; 15; 16; 44; 45]) (bits_at d [17; 18; 19; 20; 21; 46; 47])
    (bits_at d [22; 23; 25; 26]) (bits_at d [27; 28; 29; 30]) (bits_at d [31; 32; 33; 34]) (2 * bits_at d [35; 36; 37]) (set_Vl V (set_L L (set_w0 (radians (exp2f o (exponent2400 (pitch2400 d)))) (set_repeat (p_repeat prev) cur)))) prev
    (higher2400 d) codebooks2400 HL) as (Tl & L2 & VT & EA);
    try (match goal with |- 0 <= bits_at d ?ps < _ => exact (bits_at_range 49 d ps Hd ltac:(positions)) end); try reflexivity.
  { pose proof (bits_at_range 49 d [35; 36; 37] Hd ltac:(positions)) as R. change (2 ^ Z.of_nat (length [35; 36; 37])) with 8 in R. change (Z.of_nat 16) with 16. lia. }
  fields. rewrite EA in H. clear EA.
  change (nth (Z.to_nat (bits_at d [6; 7; 8; 9; 42; 43])) (at_Dg tables2400) fzero) with (gain2400 d) in H.
  apply bind_inv in H as ([c p] & H & K). injection K as _ -> ->. apply bind_inv in H as (p1 & HE & H). apply bind_inv in H as (c1 & HP & H). injection H as -> ->.
  rewrite <- half_eq in HP. match type of HP with ambe_predict _ _ _ _ _ ?c = _ => refine (ambe_end o u L prev prev' Tl c cur' (voicing2400 o d) (block2400 L) (gain_vector2400 d) (higher2400 d) HU HL _ HE HP V1 VT EP l Hl) end.
  destruct WC as (W1 & W). split; [exact L1|exact W].
Qed.
