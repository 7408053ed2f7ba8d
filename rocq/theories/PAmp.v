(* Proofs about the decoded amplitudes. *)
From Coq Require Import ZArith List Bool Lia.
From Verif Require Import Res F32 TabImbe MFrame MParms MSynth MImbe MAmbe SpecEcc PBase SpecFrame PLoop PRun PArr SpecState PState PConv PFrame7100 PSpeech PDec SpecImbe PImbe SpecAmp.
Import ListNotations.
Local Open Scope Z_scope.

Lemma upto_snoc : forall n, 1 <= n -> upto n = upto (n - 1) ++ [n].
Proof.
  intros n H. unfold upto. replace (Z.to_nat n) with (S (Z.to_nat (n - 1))) by lia. rewrite seq_S, map_app. cbn [map].
  do 2 f_equal. lia.
Qed.
Lemma upto_nil : forall n, n <= 0 -> upto n = [].
Proof. intros n H. unfold upto. replace (Z.to_nat n) with 0%nat by lia. reflexivity. Qed.
Lemma upto_length : forall n, length (upto n) = Z.to_nat n.
Proof. intros n. unfold upto. now rewrite map_length, seq_length. Qed.
Lemma fsum_step : forall n f, 1 <= n -> fsum n f = fadd (fsum (n - 1) f) (f n).
Proof. intros n f H. unfold fsum. rewrite (upto_snoc n H), fold_left_app. reflexivity. Qed.
Lemma fsum_0 : forall f, fsum 0 f = fzero.
Proof. reflexivity. Qed.
Lemma fsum_loop : forall n f body, 0 <= n -> (forall k s, 1 <= k <= n -> body k s = Ok (fadd s (f k))) ->
  for_up 1 (n + 1) body fzero = Ok (fsum n f).
Proof.
  intros n f body Hn H. destruct (for_up_ok (fun k s => s = fsum (k - 1) f) body 1 (n + 1) fzero) as (s & E & Q).
  - lia.
  - intros k s Hk ->. eexists. split; [apply H; lia|]. rewrite <- fsum_step by lia. f_equal. lia.
  - reflexivity.
  - rewrite E, Q. do 2 f_equal. lia.
Qed.
Lemma fsum_ext : forall n f g, (forall k, 1 <= k <= n -> f k = g k) -> fsum n f = fsum n g.
Proof.
  intros n f g H. destruct (Z_le_gt_dec 0 n) as [G|G]; [|unfold fsum; now rewrite upto_nil by lia].
  pose proof (fsum_loop n f (fun k s => Ok (fadd s (f k))) G ltac:(reflexivity)) as A.
  rewrite (fsum_loop n g) in A; [now injection A|exact G|]. intros k s Hk. now rewrite H.
Qed.

Opaque idct.
(* array cells lo .. hi - 1 hold f *)
Definition holds {A} (n : nat) (lo hi : Z) (f : Z -> A) (a : list (option A)) : Prop :=
  length a = n /\ forall i, lo <= i < hi -> rd a i = Ok (Some (f i)).
Lemma holds_step : forall {A} n lo k f (a : list (option A)) x, holds n lo k f a -> 0 <= lo <= k -> k < Z.of_nat n -> x = f k ->
  exists a', wr a k (Some x) = Ok a' /\ holds n lo (k + 1) f a'.
Proof.
  intros A n lo k f a x [L H] Hlo Hk ->. pose proof (wr_ok a k (Some (f k)) ltac:(lia)) as W. eexists. split; [exact W|]. split; [now rewrite set_nth_length|].
  intros i Hi. destruct (Z.eq_dec i k) as [->|N]; [exact (rd_wr_same _ _ _ _ W)|]. rewrite (rd_wr_other _ _ i _ _ W) by lia. apply H. lia.
Qed.

Lemma nth_rd : forall {A} (l : list A) i d x, rd l i = Ok x -> nth (Z.to_nat i) l d = x.
Proof. intros A l i d x H. apply rd_inv in H as [_ H]. now apply nth_error_nth. Qed.
Lemma rd2_nth : forall {A} (t : list (list A)) i j d x, rd2 t i j = Ok x -> nth (Z.to_nat j) (nth (Z.to_nat i) t []) d = x.
Proof. intros A t i j d x H. apply bind_inv in H as (r & H1 & H2). rewrite (nth_rd _ _ [] _ H1). now apply nth_rd. Qed.

Lemma gm_val : forall o L d bb, 9 <= L <= 56 -> is_bits 88 d -> scattered L d 79 bb ->
  exists Gm, imbe_gm o bb (L - 9) = Ok Gm /\ holds 7 1 7 (imbe_gain o L d) Gm.
Proof.
  intros o L d bb HL Hd S. pose proof (blocks L HL) as BF. unfold imbe_gm.
  destruct (quantiser_value L d bb 2 6 HL Hd S) as (E2 & R2); [right; left; reflexivity|lia|]. rewrite E2. cbn [bind].
  destruct (rd_ok B2 (quantiser_number L d 2 6)) as [g1 Hg1]; [change (Z.of_nat (length B2)) with 64; lia|]. rewrite Hg1. cbn [bind].
  destruct (holds_step 7 1 1 (imbe_gain o L d) (@fresh f32 7) g1) as (G0 & W0 & F0); [split; [reflexivity|intros; lia]|lia|lia| |].
  { unfold imbe_gain, entry. cbn [Z.eqb Pos.eqb]. symmetry. now apply nth_rd. }
  rewrite W0. cbn [bind].
  rewrite (rd_nth ba (L - 9) []) by (change (Z.of_nat (length ba)) with 48; lia). cbn [bind].
  match goal with |- exists V, for_up _ _ ?f ?s0 = _ /\ _ => destruct (for_up_ok (fun i s => holds 7 1 i (imbe_gain o L d) s) f 2 7 s0) as (G & E & P) end;
    [lia| |exact F0|exists G; auto].
  intros i G Hi F. destruct (bf_gain L BF (i - 2)) as (x & y & n & Hx & Hy & Hn & HN & Rn); [lia|]. rewrite Hx. cbn [bind]. rewrite Hy. cbn [bind]. rewrite Hn. cbn [bind].
  destruct (quantiser_value L d bb (i + 1) n HL Hd S) as (Ev & _); [|lia|].
  { right. right. replace (i + 1) with (3 + Z.of_nat (Z.to_nat (i - 2))) by lia. apply number_in. rewrite nth_error_app1; [exact HN|]. rewrite (bf_glen L BF). lia. }
  rewrite Ev. cbn [bind]. apply holds_step; [exact F|lia|lia|].
  unfold imbe_gain, dequantised, entry, table. replace (i =? 1) with false by lia. cbv zeta.
  change 0%nat with (Z.to_nat 0) at 2. change 1%nat with (Z.to_nat 1). rewrite (rd2_nth _ _ _ _ _ Hx), (rd2_nth _ _ _ _ _ Hy), (nth_error_nth _ _ _ HN). reflexivity.
Qed.

Lemma ri_val : forall o Gm g, holds 7 1 7 g Gm -> exists Ri, imbe_ri o Gm = Ok Ri /\ holds 7 1 7 (idct o 6 g) Ri.
Proof.
  intros o Gm g [_ F]. unfold imbe_ri.
  match goal with |- exists V, for_up _ _ ?f ?s0 = _ /\ _ => destruct (for_up_ok (fun i s => holds 7 1 i (idct o 6 g) s) f 1 7 s0) as (G & E & P) end;
    [lia| |split; [reflexivity|intros; lia]|exists G; auto].
  intros i R Hi FR. rewrite (fsum_loop 6 (fun k => fmul (fmul (f_of_Z (if k =? 1 then 1 else 2)) (g k)) (dct_cosine o 6 k i))).
  - cbn [bind]. apply holds_step; [exact FR|lia|lia|reflexivity].
  - lia.
  - intros m s Hm. rewrite (rdi_some _ _ _ (F m ltac:(lia))). reflexivity.
Qed.

(* coefficients: block i' holds c i' 1 .. c i' ji *)
Definition cells (L : Z) (c : Z -> Z -> f32) (i k : Z) (C : list (list (option f32))) : Prop :=
  shape 7 11 C /\ (forall i' k', 1 <= i' < i -> 1 <= k' <= ji L i' -> rd2 C i' k' = Ok (Some (c i' k'))) /\
  (forall k', 1 <= k' < k -> rd2 C i k' = Ok (Some (c i k'))).
Lemma cells_step : forall L c i k C x, cells L c i k C -> 1 <= i <= 6 -> 1 <= k <= 10 -> x = c i k -> exists C', wr2 C i k (Some x) = Ok C' /\ cells L c i (k + 1) C'.
Proof.
  intros L c i k C x (S & P & Q) Hi Hk ->. destruct (wr2_ok 7 11 C i k (Some (c i k)) S) as (C' & W & S' & SM & OT); [lia|lia|]. exists C'. split; [exact W|].
  split; [exact S'|]. split.
  - intros i' k' Hi' Hk'. rewrite OT by lia. auto.
  - intros k' Hk'. destruct (Z.eq_dec k' k) as [->|N]; [exact SM|]. rewrite OT by lia. apply Q. lia.
Qed.
Lemma higher_number : forall L i k, 9 <= L <= 56 -> 1 <= i <= 6 -> higher_quantiser L i k = 8 + jsum L i - (i - 1) + (k - 2).
Proof.
  intros L i k HL Hi. unfold higher_quantiser.
  assert (Q : forall n, (n <= 6)%nat -> fold_right Z.add 0 (map (fun j => block_size L j - 1) (upto (Z.of_nat n))) = jsum L (Z.of_nat n + 1) - Z.of_nat n).
  { induction n as [|n IH]; intros Hn.
    - pose proof (bf_first L (blocks L HL)) as H. cbn [upto]. rewrite upto_nil by lia. cbn [map fold_right]. change (Z.of_nat 0 + 1) with 1. lia.
    - rewrite upto_snoc by lia. rewrite map_app, fold_right_app. cbn [map fold_right].
      assert (FA : forall l b, fold_right Z.add b l = fold_right Z.add 0 l + b) by (clear; induction l as [|x l IH]; intros b; cbn [fold_right]; [lia|rewrite IH; lia]).
      rewrite FA. replace (Z.of_nat (S n) - 1) with (Z.of_nat n) by lia. rewrite IH by lia.
      destruct (bf_sum L (blocks L HL) (Z.of_nat n + 1)) as (S1 & _ & _); [lia|]. replace (Z.of_nat (S n)) with (Z.of_nat n + 1) by lia. rewrite S1.
      change (block_size L (Z.of_nat n + 1)) with (ji L (Z.of_nat n + 1)). lia. }
  specialize (Q (Z.to_nat (i - 1)) ltac:(lia)). replace (Z.of_nat (Z.to_nat (i - 1))) with (i - 1) in Q by lia. replace (i - 1 + 1) with i in Q by lia. rewrite Q. lia.
Qed.
Lemma cik_val : forall o L d bb Ri, 9 <= L <= 56 -> is_bits 88 d -> scattered L d 79 bb -> holds 7 1 7 (idct o 6 (imbe_gain o L d)) Ri ->
  exists C, imbe_cik o bb (L - 9) Ri = Ok C /\ cells L (imbe_coefficient o L d) 7 1 C.
Proof.
  intros o L d bb Ri HL Hd S [_ FR]. pose proof (blocks L HL) as BF. unfold imbe_cik.
  match goal with |- exists V, bind (for_up _ _ ?f ?s0) _ = _ /\ _ => destruct (for_up_ok (fun i (s : list (list (option f32)) * Z) =>
      cells L (imbe_coefficient o L d) i 1 (fst s) /\ snd s = 8 + jsum L i - (i - 1)) f 1 7 s0) as ([C m] & E & P & _) end;
    [lia| | |rewrite E; cbn [bind]; exists C; auto].
  - intros i [C m] Hi [P Q]. cbn [fst snd] in *. rewrite (rdi_some _ _ _ (FR i Hi)). cbn [bind].
    destruct (cells_step L _ i 1 C (idct o 6 (imbe_gain o L d) i) P) as (C1 & W1 & P1); [lia|lia|unfold imbe_coefficient; change (1 =? 1) with true; reflexivity|]. rewrite W1. cbn [bind].
    destruct (bf_ji L BF i) as [J1 J2]; [lia|]. destruct (bf_sum L BF i) as (S1 & S2 & S3); [lia|]. rewrite J2. cbn [bind].
    match goal with |- exists V, for_up _ _ ?f ?s0 = _ /\ _ => destruct (for_up_ok (fun k (s : list (list (option f32)) * Z) =>
      cells L (imbe_coefficient o L d) i k (fst s) /\ snd s = 8 + jsum L i - (i - 1) + (k - 2)) f 2 (ji L i + 1) s0) as ([C2 m2] & E & P2 & Q2) end.
    + lia.
    + intros k [C3 m3] Hk [P3 Q3]. cbn [fst snd] in *. destruct (bf_high L BF (m3 - 8)) as (n & Hn & HN & Rn); [lia|]. rewrite Hn. cbn [bind].
      match goal with |- context [bind (if n =? 0 then Ok fzero else ?e) _] => assert (K : (if n =? 0 then Ok fzero else e) = Ok (imbe_coefficient o L d i k)) end.
      { unfold imbe_coefficient. replace (k =? 1) with false by lia. cbv zeta. rewrite higher_number by lia. rewrite <- Q3. unfold entry at 1. rewrite (nth_error_nth _ _ _ HN).
        destruct (Z.eqb_spec n 0); [reflexivity|].
        destruct (quantiser_value L d bb m3 n HL Hd S) as (Ev & _); [|lia|].
        { right. right. replace m3 with (3 + Z.of_nat (5 + Z.to_nat (m3 - 8))) by lia. apply number_in. rewrite nth_error_app2; rewrite (bf_glen L BF); [|lia].
          replace (5 + Z.to_nat (m3 - 8) - 5)%nat with (Z.to_nat (m3 - 8)) by lia. exact HN. }
        rewrite Ev. cbn [bind]. destruct (rd_ok quantstep (n - 1)) as [q Hq]; [change (Z.of_nat (length quantstep)) with 11; lia|]. rewrite Hq. cbn [bind].
        destruct (rd_ok standdev (k - 2)) as [sd Hsd]; [change (Z.of_nat (length standdev)) with 9; lia|]. rewrite Hsd. cbn [bind].
        unfold dequantised, entry. rewrite (nth_error_nth _ _ _ HN), (nth_rd _ _ _ _ Hq), (nth_rd _ _ _ _ Hsd). reflexivity. }
      rewrite K. cbn [bind]. destruct (cells_step L _ i k C3 _ P3 ltac:(lia) ltac:(lia) eq_refl) as (C4 & W4 & P4). rewrite W4. cbn [bind].
      eexists. split; [reflexivity|]. cbn [fst snd]. split; [exact P4|lia].
    + cbn [fst snd]. split; [exact P1|lia].
    + exists (C2, m2). split; [exact E|]. cbn [fst snd] in *. split; [|lia]. destruct P2 as (X1 & X2 & X3). split; [exact X1|]. split; [|intros; lia].
      intros i' k' Hi' Hk'. destruct (Z.eq_dec i' i) as [->|N]; [apply X3; lia|apply X2; lia].
  - cbn [fst snd]. split; [|rewrite (bf_first L BF); lia]. split; [exact (shape_fresh 7 11)|]. split; intros; lia.
Qed.

(* a block loop appends the residuals of one block *)
Lemma flat_upto : forall {A} n (f : Z -> list A), 1 <= n -> flat_map f (upto n) = flat_map f (upto (n - 1)) ++ f n.
Proof. intros A n f H. rewrite (upto_snoc n H), flat_map_app. cbn [flat_map]. now rewrite app_nil_r. Qed.
Lemma map_upto : forall {A} n (f : Z -> A), 1 <= n -> map f (upto n) = map f (upto (n - 1)) ++ [f n].
Proof. intros A n f H. now rewrite (upto_snoc n H), map_app. Qed.
(* T = 0, the values v, then zeros up to 57 cells; the next cell is l *)
Definition laid (v : list f32) (s : list f32 * Z) : Prop :=
  (length v <= 56)%nat /\ fst s = fzero :: v ++ repeat fzero (56 - length v) /\ snd s = 1 + Z.of_nat (length v).
Lemma laid_step : forall v T l x, laid v (T, l) -> (length v < 56)%nat -> exists T', wr T l x = Ok T' /\ laid (v ++ [x]) (T', l + 1).
Proof.
  intros v T l x (L & E & El) H. cbn [fst snd] in *. subst l T. replace (56 - length v)%nat with (S (56 - S (length v))) by lia. cbn [repeat].
  eexists. split.
  - apply (wr_at (fzero :: v) fzero x). cbn [length]. lia.
  - split; [rewrite app_length; cbn; lia|]. cbn [fst snd]. rewrite app_length. cbn [length]. split; [|lia].
    rewrite <- app_comm_cons, <- app_assoc. cbn [app]. do 3 f_equal. f_equal. lia.
Qed.
Lemma laid_rd : forall v s l, laid v s -> 1 <= l <= Z.of_nat (length v) -> rd (fst s) l = Ok (nth (Z.to_nat (l - 1)) v fzero).
Proof.
  intros v [T n] l (L & E & _) H. cbn [fst] in *. subst T. rewrite (rd_nth _ l fzero) by (cbn [length]; rewrite app_length; lia).
  replace (Z.to_nat l) with (S (Z.to_nat (l - 1))) by lia. cbn [nth]. rewrite app_nth1 by lia. reflexivity.
Qed.
Lemma laid_length : forall v s, laid v s -> length (fst s) = 57%nat.
Proof. intros v [T n] (L & E & _). cbn [fst] in *. subst T. cbn [length]. rewrite app_length, repeat_length. lia. Qed.

Lemma residuals_length : forall o n j c, length (residuals o n j c) = fold_right (fun i a => Z.to_nat (j i) + a)%nat 0%nat (upto n).
Proof.
  intros o n j c. unfold residuals. induction (upto n) as [|i l IH]; [reflexivity|]. cbn [flat_map fold_right].
  rewrite app_length, map_length, upto_length, IH. reflexivity.
Qed.

Lemma block_length : forall o L n c, 9 <= L <= 56 -> 0 <= n <= 6 -> Z.of_nat (length (residuals o n (block_size L) c)) = jsum L (n + 1).
Proof.
  intros o L n c HL Hn.
  assert (Q : forall n, (n <= 6)%nat -> Z.of_nat (length (residuals o (Z.of_nat n) (block_size L) c)) = jsum L (Z.of_nat n + 1)).
  { clear n Hn. induction n as [|n IH]; intros Hn; [symmetry; exact (bf_first L (blocks L HL))|].
    unfold residuals in *. rewrite flat_upto by lia. rewrite app_length, map_length, upto_length. replace (Z.of_nat (S n) - 1) with (Z.of_nat n) by lia.
    rewrite Nat2Z.inj_add, IH by lia. destruct (bf_sum L (blocks L HL) (Z.of_nat n + 1)) as (S1 & _ & _); [lia|]. destruct (bf_ji L (blocks L HL) (Z.of_nat n + 1)) as (J & _); [lia|].
    replace (Z.of_nat (S n)) with (Z.of_nat n + 1) by lia. rewrite S1. change (block_size L (Z.of_nat n + 1)) with (ji L (Z.of_nat n + 1)). lia. }
  specialize (Q (Z.to_nat n) ltac:(lia)). rewrite Z2Nat.id in Q by lia. exact Q.
Qed.

Lemma jsum_le : forall L i, 9 <= L <= 56 -> 1 <= i <= 6 -> jsum L (i + 1) <= L.
Proof.
  intros L i HL Hi. pose proof (blocks L HL) as BF. pose proof (bf_last L BF) as BL.
  assert (B : forall j, 1 <= j <= 6 -> jsum L j <= jsum L (j + 1)) by (intros j Hj; destruct (bf_sum L BF j Hj); destruct (bf_ji L BF j Hj); lia).
  pose proof (B 2 ltac:(lia)). pose proof (B 3 ltac:(lia)). pose proof (B 4 ltac:(lia)). pose proof (B 5 ltac:(lia)). pose proof (B 6 ltac:(lia)).
  assert (i = 1 \/ i = 2 \/ i = 3 \/ i = 4 \/ i = 5 \/ i = 6) as [->|[->|[->|[->|[->| -> ]]]]] by lia;
  change (1 + 1) with 2 in *; change (2 + 1) with 3 in *; change (3 + 1) with 4 in *; change (4 + 1) with 5 in *; change (5 + 1) with 6 in *; change (6 + 1) with 7 in *; lia.
Qed.

Lemma tl_val : forall o L c C, 9 <= L <= 56 -> cells L c 7 1 C -> exists Tl, imbe_tl o (L - 9) C = Ok Tl /\ length Tl = 57%nat /\
  forall l, 1 <= l <= L -> rd Tl l = Ok (nth (Z.to_nat (l - 1)) (residuals o 6 (block_size L) c) fzero).
Proof.
  intros o L c C HL (SH & P & _). pose proof (blocks L HL) as BF. unfold imbe_tl.
  match goal with |- exists V, bind (for_up _ _ ?f ?s0) _ = _ /\ _ => destruct (for_up_ok (fun i (s : list f32 * Z) =>
      laid (residuals o (i - 1) (block_size L) c) s) f 1 7 s0) as ([T m] & E & Q) end.
  - lia.
  - intros i [T l] Hi Q. destruct (bf_ji L BF i) as [J1 J2]; [lia|]. destruct (bf_sum L BF i) as (S1 & S2 & S3); [lia|]. rewrite J2. cbn [bind].
    pose proof (jsum_le L i HL ltac:(lia)) as SL. pose proof (block_length o L (i - 1) c HL ltac:(lia)) as BL. replace (i - 1 + 1) with i in BL by lia.
    match goal with |- exists V, for_up _ _ ?f ?s0 = _ /\ _ => destruct (for_up_ok (fun j (s : list f32 * Z) =>
      laid (residuals o (i - 1) (block_size L) c ++ map (idct o (ji L i) (c i)) (upto (j - 1))) s) f 1 (ji L i + 1) s0) as ([T2 m2] & E & P2) end.
    + lia.
    + intros j [T3 m3] Hj P3.
      rewrite (fsum_loop (ji L i) (fun k => fmul (fmul (f_of_Z (if k =? 1 then 1 else 2)) (c i k)) (dct_cosine o (ji L i) k j))).
      * cbn [bind]. destruct (laid_step _ T3 m3 (idct o (ji L i) (c i) j) P3) as (T4 & W4 & P4).
        { rewrite app_length, map_length, upto_length. lia. }
        unfold idct in W4 at 1. rewrite W4. cbn [bind]. eexists. split; [reflexivity|]. rewrite <- app_assoc in P4. rewrite <- map_upto in P4 by lia.
        replace (j + 1 - 1) with j by lia. exact P4.
      * lia.
      * intros k s Hk. rewrite (rdi2_some _ _ _ _ (P i k ltac:(lia) ltac:(lia))). reflexivity.
    + cbn [upto]. rewrite upto_nil by lia. cbn [map]. rewrite app_nil_r. exact Q.
    + exists (T2, m2). split; [exact E|]. replace (i + 1 - 1) with i by lia. unfold residuals. rewrite flat_upto by lia.
      replace (ji L i + 1 - 1) with (ji L i) in P2 by lia. exact P2.
  - split; [cbn; lia|]. split; reflexivity.
  - rewrite E. cbn [bind]. exists T. split; [reflexivity|]. change (7 - 1) with 6 in Q. split; [exact (laid_length _ _ Q)|].
    intros l Hl. apply (laid_rd _ (T, m)); [exact Q|]. rewrite (block_length o L 6 c HL ltac:(lia)). change (6 + 1) with 7. rewrite (bf_last L BF). exact Hl.
Qed.

(* ---- prediction ---- *)
Lemma interp_val : forall pL cL l, 0 <= pL <= 56 -> 9 <= cL <= 56 -> 0 <= l <= cL ->
  interp pL cL l = Ok (whole_part (position pL cL l), fraction (position pL cL l)) /\ 0 <= whole_part (position pL cL l) <= pL.
Proof.
  intros pL cL l H1 H2 H3. destruct (interp_ok pL cL l H1 H2 H3) as (k & dl & E & K & _). unfold interp in *. cbv zeta in *.
  fold (position pL cL l) in *. unfold sf_to_int in *. unfold fraction, whole_part. destruct (sf_trunc (position pL cL l)) as [z|]; [|discriminate E].
  destruct (in_int z); [|discriminate E]. cbn [bind] in *. injection E as -> _. split; [reflexivity|exact K].
Qed.
Lemma past_val : forall L prev prev' k, extended (p_L prev) L (p_log2Ml prev) (p_log2Ml prev') -> 0 <= p_L prev -> length (p_log2Ml prev) = 57%nat -> p_L prev <= 56 -> 0 <= k <= 56 ->
  rd (p_log2Ml prev') k = Ok (past prev L k).
Proof.
  intros L prev prev' k (X & Y & Z) H LG HP Hk. unfold past. destruct (Z.ltb_spec (p_L prev) k); destruct (Z.leb_spec k L); cbn [andb].
  - rewrite Z by lia. apply rd_nth. lia.
  - rewrite Y by lia. apply rd_nth. lia.
  - rewrite Y by lia. apply rd_nth. lia.
  - rewrite Y by lia. apply rd_nth. lia.
Qed.
Lemma history_val : forall prev cL a l, 0 <= p_L prev -> prev_ok cL prev -> 9 <= cL <= 56 -> 1 <= l <= cL -> (forall k, 0 <= k <= 56 -> rd (p_log2Ml prev) k = Ok (a k)) ->
  let w := whole_part (position (p_L prev) cL l) in
  interp (p_L prev) cL l = Ok (w, fraction (position (p_L prev) cL l)) /\ rd (p_log2Ml prev) w = Ok (a w) /\ rd (p_log2Ml prev) (w + 1) = Ok (a (w + 1)).
Proof.
  intros prev cL a l H0 P HC Hl A. destruct (history_total prev cL l P HC Hl) as (k & dl & x & y & E & Hx & Hy).
  assert (HP : 0 <= p_L prev <= 56) by (destruct P as [_ P]; lia).
  destruct (interp_val (p_L prev) cL l HP HC ltac:(lia)) as (I & B). cbv zeta. rewrite I in E. injection E as <- <-.
  apply rd_inv in Hy as (R & _). destruct P as [(_ & _ & LG & _) _]. rewrite LG in R. split; [exact I|]. split; apply A; lia.
Qed.

Lemma rho_val : forall L, 9 <= L <= 56 -> imbe_rho L = prediction L.
Proof.
  intros L HL. unfold imbe_rho, prediction. destruct (L <=? 15) eqn:E1; [reflexivity|]. destruct (L <=? 24) eqn:E2; [|reflexivity].
  assert (L = 16 \/ L = 17 \/ L = 18 \/ L = 19 \/ L = 20 \/ L = 21 \/ L = 22 \/ L = 23 \/ L = 24) as D by lia.
  repeat (destruct D as [->|D]; [vm_compute; reflexivity|]). subst L. vm_compute. reflexivity.
Qed.
Lemma imbe_predict_val : forall o L prev Tl cur a r, 0 <= p_L prev -> prev_ok L prev -> wf_parms cur -> 9 <= L <= 56 ->
  (forall k, 0 <= k <= 56 -> rd (p_log2Ml prev) k = Ok (a k)) -> (forall l, 1 <= l <= L -> rd Tl l = Ok (r l)) ->
  exists cur', imbe_predict o L prev Tl cur = Ok cur' /\ forall l, 1 <= l <= L ->
    rd (p_log2Ml cur') l = Ok (predicted (imbe_rho L) (p_L prev) L a r l) /\ rd (p_Ml cur') l = Ok (exp2f o (predicted (imbe_rho L) (p_L prev) L a r l)).
Proof.
  intros o L prev Tl cur a r H0 P W HL A T. unfold imbe_predict. cbv zeta.
  assert (S : imbe_sum77 L (imbe_rho L) prev = Ok (fmul (fdiv (imbe_rho L) (f_of_Z L)) (fsum L (fun l =>
      fadd (fmul (fsub (flit 1 1) (fraction (position (p_L prev) L l))) (a (whole_part (position (p_L prev) L l)))) (fmul (fraction (position (p_L prev) L l)) (a (whole_part (position (p_L prev) L l) + 1))))))).
  { unfold imbe_sum77. rewrite (fsum_loop L (fun l =>
      fadd (fmul (fsub (flit 1 1) (fraction (position (p_L prev) L l))) (a (whole_part (position (p_L prev) L l)))) (fmul (fraction (position (p_L prev) L l)) (a (whole_part (position (p_L prev) L l) + 1)))));
      [reflexivity|lia|]. intros l s Hl. destruct (history_val prev L a l H0 P HL Hl A) as (I & R1 & R2). rewrite I. cbn [bind]. rewrite R1. cbn [bind]. rewrite R2. reflexivity. }
  rewrite S. cbn [bind].
  match goal with |- exists p, for_up _ _ ?b ?s0 = _ /\ _ =>
    destruct (for_up_ok (fun k x => length (p_Ml x) = 57%nat /\ length (p_log2Ml x) = 57%nat /\ forall l, 1 <= l < k ->
      rd (p_log2Ml x) l = Ok (predicted (imbe_rho L) (p_L prev) L a r l) /\ rd (p_Ml x) l = Ok (exp2f o (predicted (imbe_rho L) (p_L prev) L a r l))) b 1 (L + 1) s0) as (c2 & E & B) end;
    [| | |exists c2; split; [exact E|intros l Hl; apply B; lia]].
  - lia.
  - intros l x Hl (LM & LG & K). destruct (history_val prev L a l H0 P HL ltac:(lia) A) as (I & R1 & R2).
    unfold imbe_log2. rewrite I. cbn [bind]. rewrite R1. cbn [bind]. rewrite R2. cbn [bind]. rewrite T by lia. cbn [bind].
    match goal with |- context [wr (p_log2Ml x) l ?g] => change g with (predicted (imbe_rho L) (p_L prev) L a r l) end.
    generalize (predicted (imbe_rho L) (p_L prev) L a r) K. intros g K'.
    pose proof (wr_ok (p_log2Ml x) l (g l) ltac:(lia)) as W1. pose proof (wr_ok (p_Ml x) l (exp2f o (g l)) ltac:(lia)) as W2.
    rewrite W1. cbn [bind]. rewrite W2. cbn [bind]. eexists. split; [reflexivity|]. fields. rewrite !set_nth_length. split; [exact LM|]. split; [exact LG|].
    intros i Hi. rewrite (rd_wr_any _ _ _ _ _ W1), (rd_wr_any _ _ _ _ _ W2). destruct (Z.eqb_spec i l) as [->|N]; [split; reflexivity|]. apply K'. lia.
  - destruct W as (_ & W1 & W2 & _). split; [exact W1|]. split; [exact W2|]. intros; lia.
Qed.
Lemma imbe_amplitudes : forall o d cur prev bad cur' prev', is_bits 88 d -> wf_parms cur -> pitch7200 d <= 207 -> usable_history (imbe_harmonics (pitch7200 d)) prev ->
  mbe_decodeImbe4400Parms o d cur prev = Ok (bad, cur', prev') -> let L := imbe_harmonics (pitch7200 d) in
  forall l, 1 <= l <= L -> rd (p_log2Ml cur') l = Ok (imbe_log_amplitude o L d prev l) /\ rd (p_Ml cur') l = Ok (exp2f o (imbe_log_amplitude o L d prev l)).
Proof.
  intros o d cur prev bad cur' prev' Hd WC Hb HU H L.
  pose proof (pitch7200_range d Hd) as R. pose proof (harmonics_range (pitch7200 d) ltac:(lia)) as HL. fold L in HL.
  destruct (harmonics_of_b0 (pitch7200 d) ltac:(lia)) as (E1 & E2 & E3). fold L in E1, E2. fold L in HU.
  unfold mbe_decodeImbe4400Parms in H. cbv zeta in H. rewrite read_pitch7200 in H by exact Hd. cbn [bind] in H.
  destruct (Z.ltb_spec 207 (pitch7200 d)); [lia|]. fields. rewrite E1 in H. cbn [bind] in H.
  destruct (Z.ltb_spec 56 L); [lia|]. destruct (Z.ltb_spec L 9); [lia|]. cbn [orb] in H. rewrite E2 in H. cbn [bind] in H.
  destruct (imbe_bb_ok d L HL) as (bb & Hbb & S); [destruct Hd; lia|]. rewrite Hbb in H. cbn [bind] in H. fields.
  destruct (vl_ok L d bb (p_Vl cur) HL Hd S) as (V & HV & LV' & V1 & V2); [apply WC|]. rewrite bands_voicing in H. fold L in H. rewrite HV in H. cbn [bind] in H.
  destruct (gm_val o L d bb HL Hd S) as (Gm & HG & FG). rewrite HG in H. cbn [bind] in H.
  destruct (ri_val o Gm _ FG) as (Ri & HR & FR). rewrite HR in H. cbn [bind] in H.
  destruct (cik_val o L d bb Ri HL Hd S FR) as (C & HC & FC). rewrite HC in H. cbn [bind] in H.
  destruct (tl_val o L _ C HL FC) as (Tl & HT & LT & VT). rewrite HT in H. cbn [bind] in H.
  apply bind_inv in H as (p1 & HE & H). apply bind_inv in H as (c1 & HP & H). injection H as _ <- _.
  pose proof (extend_prev_extended _ _ _ HE) as [_ X2]. apply extend_prev_effect in HE as [B SL].
  destruct HU as [WP HU]. assert (HL1 : p_L p1 = p_L prev) by (rewrite B; reflexivity). intros l Hl.
  match type of HP with imbe_predict o L p1 Tl ?c = _ => destruct (imbe_predict_val o L p1 Tl c (past prev L) (imbe_residual o L d)) as (c2 & E4 & Q) end; [| | | | | |].
  - rewrite HL1. lia.
  - split; [eapply but_logs_wf; eassumption|]. rewrite HL1. destruct HU as [HU|[HU [HU2|HU2]]]; [left; exact HU|right; split; [exact HU|rewrite HU2; reflexivity]|right; split; [exact HU|rewrite HU2; reflexivity]].
  - destruct WC as (W1 & W). split; [exact LV'|exact W].
  - exact HL.
  - intros k Hk. apply past_val; [exact X2|lia|apply WP|lia|exact Hk].
  - exact VT.
  - rewrite HP in E4. injection E4 as <-. unfold imbe_log_amplitude. rewrite <- rho_val by exact HL. rewrite <- HL1. apply Q, Hl.
Qed.
