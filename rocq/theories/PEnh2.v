(* The enhanced amplitudes as formulas. *)
From Coq Require Import ZArith List Bool Lia Reals Lra.
From Verif Require Import Res F32 MParms MAdaptive MUnvoiced MSynth SpecAmp SpecSynth SpecSum SpecEnh2 PBase PRun PArr PSse PMoment PFloat PReal SpecTrig POsc PAmp PSynth PEnh.
Import ListNotations.
Local Open Scope Z_scope.

Lemma cos_tab_val : forall o L w0, 0 <= L <= 56 -> exists tab, enh_cos_tab o L w0 = Ok tab /\ forall l, 1 <= l <= L -> rdi tab l = Ok (harmonic_cos o w0 l).
Proof.
  intros o L w0 HL. unfold enh_cos_tab. cbv zeta.
  match goal with |- context [for_up 1 (L + 1) ?b ?s0] => destruct (for_up_ok (fun k '(tab, c, s) => length tab = 57%nat /\
     (c, s) = Nat.iter (Z.to_nat (k - 1)) (rotate (cosf o w0) (sinf o w0)) (f_of_Z 1, zero) /\ forall l, 1 <= l < k -> rd tab l = Ok (Some (harmonic_cos o w0 l))) b 1 (L + 1) s0) as ([[tab c] s] & E & F) end.
  - lia.
  - intros k [[tab c] s] Hk (Lt & Ecs & F).
    set (cn := fsub _ _). set (sn := fadd _ _).
    assert (N : (cn, sn) = Nat.iter (Z.to_nat (k + 1 - 1)) (rotate (cosf o w0) (sinf o w0)) (f_of_Z 1, zero)).
    { replace (Z.to_nat (k + 1 - 1)) with (S (Z.to_nat (k - 1))) by lia.
      change (Nat.iter (S (Z.to_nat (k - 1))) (rotate (cosf o w0) (sinf o w0)) (f_of_Z 1, zero))
        with (rotate (cosf o w0) (sinf o w0) (Nat.iter (Z.to_nat (k - 1)) (rotate (cosf o w0) (sinf o w0)) (f_of_Z 1, zero))). rewrite <- Ecs. reflexivity. }
    destruct (wr tab k (Some cn)) as [tab'|] eqn:W; [|rewrite wr_ok in W by lia; discriminate W].
    cbn [bind]. eexists. split; [reflexivity|]. cbv beta iota. split; [rewrite (wr_length _ _ _ _ W); exact Lt|]. split; [exact N|].
    intros l Hl. destruct (Z.eq_dec l k) as [->|D].
    + rewrite (rd_wr_same _ _ _ _ W). do 2 f_equal. unfold harmonic_cos. replace (Z.to_nat k) with (Z.to_nat (k + 1 - 1)) by lia. rewrite <- N. reflexivity.
    + rewrite (rd_wr_other _ _ l _ _ W) by lia. apply F. lia.
  - split; [reflexivity|]. split; [reflexivity|]. intros; lia.
  - exists tab. rewrite E. split; [reflexivity|]. destruct F as (_ & _ & F). intros l Hl. unfold rdi. rewrite F by lia. reflexivity.
Qed.

Lemma fsum_pair_loop : forall n f g body, 0 <= n -> (forall k a b, 1 <= k <= n -> body k (a, b) = Ok (fadd a (f k), fadd b (g k))) ->
  for_up 1 (n + 1) body (fzero, fzero) = Ok (fsum n f, fsum n g).
Proof.
  intros n f g body Hn H. destruct (for_up_ok (fun k s => s = (fsum (k - 1) f, fsum (k - 1) g)) body 1 (n + 1) (fzero, fzero)) as (s & E & Q).
  - lia.
  - intros k s Hk ->. eexists. split; [apply H; lia|]. replace (k + 1 - 1) with k by lia. rewrite !(fsum_step k) by lia. reflexivity.
  - rewrite !fsum_0. reflexivity.
  - rewrite E, Q. replace (n + 1 - 1) with n by lia. reflexivity.
Qed.
Lemma wr_same' : forall {A} (l : list A) i x, rd l i = Ok x -> wr l i x = Ok l.
Proof.
  intros A l i x H. destruct (wr l i x) as [l'|] eqn:W; [|pose proof (rd_inv _ _ _ H) as [K _]; rewrite wr_ok in W by exact K; discriminate W].
  f_equal. apply list_eq_rd; [now rewrite (wr_length _ _ _ _ W)|]. intros j _. destruct (Z.eq_dec i j) as [<-|D]; [rewrite (rd_wr_same _ _ _ _ W), H; reflexivity|now apply (rd_wr_other _ _ _ _ _ W)].
Qed.
Lemma zfrom_upto : forall n, zfrom 1 (Z.to_nat n) = upto n.
Proof. intros n. unfold upto. change 1 with (Z.of_nat 1) at 1. rewrite zfrom_seq, <- seq_shift, map_map. apply map_ext. intros k. lia. Qed.
Lemma enhance_formula : forall o a cur t, length (p_Ml cur) = 57%nat -> 0 <= p_L cur <= 56 ->
  mbe_spectralAmpEnhance o a cur t = Ok (set_Ml (enhanced_amplitudes o cur) cur, mbe_setPreEnhRm0 a (moment0 o cur) t).
Proof.
  intros o a cur t HM HL. unfold mbe_spectralAmpEnhance. cbv zeta. set (L := p_L cur) in *.
  destruct (cos_tab_val o L (p_w0 cur) HL) as (tab & -> & F). cbn [bind].
  assert (RD : forall l, 1 <= l <= L -> rd (p_Ml cur) l = Ok (cell zero (p_Ml cur) l)) by (intros l Hl; apply cell_rd; lia).
  rewrite (energies_value (o_simd o) L (p_Ml cur) tab (fun l => cell zero (p_Ml cur) l) (fun l => harmonic_cos o (p_w0 cur) l)); [|lia|intros l Hl; split; [apply RD|apply F]; lia].
  rewrite !zfrom_upto. cbn [bind]. change (add_all (o_simd o) (map (fun l => fmul (cell zero (p_Ml cur) l) (cell zero (p_Ml cur) l)) (upto L))) with (moment0 o cur).
  change (add_all (o_simd o) (map (fun l => fmul (fmul (cell zero (p_Ml cur) l) (cell zero (p_Ml cur) l)) (harmonic_cos o (p_w0 cur) l)) (upto L))) with (moment1 o cur).
  match goal with |- context [for_up 1 (L + 1) ?b (p_Ml cur)] =>
    destruct (update_loop (fun k _ => reweighted o cur k) b 1 (L + 1) (p_Ml cur)) as (M1 & E1 & L1 & B1 & O1) end; [lia|lia|lia| |].
  - intros k s x Hk _ Hs Hx. rewrite Hs. cbn [bind]. rewrite RD in Hx by lia. injection Hx as Hx. unfold reweighted. cbv zeta. rewrite Hx. unfold fnonzero. change (SFeqb x fzero) with (SFeqb x zero). destruct (SFeqb x zero); cbn [negb].
    + symmetry. apply wr_same'. exact Hs.
    + rewrite F by lia. cbn [bind]. f_equal. unfold enh_band. fold L. destruct (8 * k <=? L); [reflexivity|].
      assert (W : enh_weight x (p_w0 cur) (moment0 o cur) (moment1 o cur) (harmonic_cos o (p_w0 cur) k) = weight o cur k).
      { unfold weight, enh_weight. cbv zeta. rewrite Hx. reflexivity. }
      rewrite W. unfold fgt. reflexivity.
  - rewrite E1. cbn [bind].
    assert (R1 : forall l, 1 <= l <= L -> rd M1 l = Ok (reweighted o cur l)) by (intros l Hl; exact (B1 l _ ltac:(lia) (RD l Hl))).
    rewrite (sum_value (o_simd o) L M1 (fun l => reweighted o cur l)); [|lia|exact R1].
    rewrite zfrom_upto. cbn [bind]. rewrite scale_value by lia.
    match goal with |- context [for_up 1 (L + 1) (fun l Ml => m <- rd Ml l ;; wr Ml l (fmul ?g m)) M1] => change g with (restore o cur) end.
    destruct (update_loop (fun _ m => fmul (restore o cur) m) (fun l Ml => m <- rd Ml l ;; wr Ml l (fmul (restore o cur) m)) 1 (L + 1) M1) as (M2 & E2 & L2 & B2 & O2); [lia|lia|lia| |].
    + intros k s x _ _ Hs _. rewrite Hs. reflexivity.
    + rewrite E2. cbn [bind]. do 3 f_equal. unfold enhanced_amplitudes. fold L. apply replaced_eq; [congruence|exact HM| |]; intros i Hi Hi'.
      * exact (B2 i _ ltac:(lia) (R1 i ltac:(lia))).
      * rewrite O2, O1 by lia. reflexivity.
Qed.
Lemma harmonic_cos_near : forall o w0 l, 0 <= l <= 56 -> trig_close o w0 -> near (harmonic_cos o w0 l) (cos (IZR l * R_of w0)) (/ 16384)%R.
Proof.
  intros o w0 l Hl (B1 & B2 & B3 & B4). unfold near, harmonic_cos.
  assert (U : (2 * u24 = / 8388608)%R) by (unfold u24; lra). rewrite <- U in B3, B4.
  assert (Q : forall n, (n <= 56)%nat -> let p := Nat.iter n (rotate (cosf o w0) (sinf o w0)) (f_of_Z 1, zero) in let phi := (INR n * R_of w0)%R in
    ff (fst p) /\ ff (snd p) /\ (N2 (R_of (fst p) - cos phi) (R_of (snd p) - sin phi) <= INR n * (12 * u24))%R).
  { induction n as [|n IH]; intros Hn.
    - cbn [Nat.iter nat_rect]. cbv zeta. cbn [fst snd]. destruct (of_Z_R 1 ltac:(lia)) as [A B]. split; [exact A|]. split; [split; reflexivity|]. cbn [INR]. rewrite B, Rmult_0_l, cos_0, sin_0.
      change (R_of zero) with 0%R. unfold N2. replace ((1 - 1) * (1 - 1) + (0 - 0) * (0 - 0))%R with 0%R by ring. rewrite sqrt_0. lra.
    - specialize (IH ltac:(lia)). cbv zeta in IH |- *. change (Nat.iter (S n) (rotate (cosf o w0) (sinf o w0)) (f_of_Z 1, zero))
        with (rotate (cosf o w0) (sinf o w0) (Nat.iter n (rotate (cosf o w0) (sinf o w0)) (f_of_Z 1, zero))).
      destruct (Nat.iter n (rotate (cosf o w0) (sinf o w0)) (f_of_Z 1, zero)) as [c s]. cbn [fst snd] in IH. destruct IH as (C & S & I).
      assert (HI : (INR n <= 56)%R). { apply (Rle_trans _ (INR 56)); [apply le_INR; lia|]. rewrite INR_IZR_INZ. apply IZR_le. lia. }
      assert (HE : (INR n * (12 * u24) <= / 100)%R) by (unfold u24; lra).
      destruct (rotate_step (cosf o w0) (sinf o w0) c s _ (R_of w0) _ B1 B2 C S B3 B4 HE I) as (X & Y & Z).
      split; [exact X|]. split; [exact Y|]. rewrite S_INR. replace ((INR n + 1) * R_of w0)%R with (INR n * R_of w0 + R_of w0)%R by ring. lra. }
  specialize (Q (Z.to_nat l) ltac:(lia)). cbv zeta in Q. destruct Q as (C & _ & I). rewrite INR_IZR_INZ, Z2Nat.id in I by lia. split; [exact C|]. eapply Rle_trans; [apply N2_fst|]. eapply Rle_trans; [exact I|].
  assert (HI : (IZR l <= 56)%R) by (apply IZR_le; lia). unfold u24. lra.
Qed.
