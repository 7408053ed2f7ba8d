(* The power of a band of bins, in all builds. *)
From Coq Require Import ZArith List Bool Lia.
From Verif Require Import Res F32 MParms MAdaptive MSse MUnvoiced SpecSum SpecAmp SpecSynth PRun PArr PSse.
Import ListNotations.
Local Open Scope Z_scope.

Lemma rd_at : forall (x : list f32) i, 0 <= i < Z.of_nat (length x) -> rd x i = Ok (cell zero x i).
Proof. intros x i H. apply rd_some; [lia|]. unfold cell. apply nth_error_nth'. lia. Qed.
Lemma zfrom_map : forall {A} (f : Z -> A) n i, map f (zfrom i n) = map (fun k => f (i + Z.of_nat k)) (seq 0 n).
Proof.
  intros A f n. induction n as [|n IH]; intros i; [reflexivity|]. cbn [zfrom seq map]. rewrite Z.add_0_r. f_equal. rewrite IH, <- seq_shift, map_map. apply map_ext. intros k. f_equal. lia.
Qed.
Lemma bin_powers_cons : forall x a b, a < b -> bin_powers x a b = bin_power x a :: bin_powers x (a + 1) b.
Proof. intros x a b H. unfold bin_powers. rewrite <- !(zfrom_map (bin_power x)). replace (Z.to_nat (b - a)) with (Datatypes.S (Z.to_nat (b - (a + 1)))) by lia. reflexivity. Qed.
Lemma bin_powers_nil : forall x a b, b <= a -> bin_powers x a b = [].
Proof. intros x a b H. unfold bin_powers. replace (Z.to_nat (b - a)) with 0%nat by lia. reflexivity. Qed.
(* the bins that are left *)
Lemma tail_value : forall x b st s, length x = 256%nat -> 1 <= st -> st <= b -> b <= 128 ->
  for_up 0 (b - st) (fun i sum => re <- rd x (2 * st + 2 * i) ;; im <- rd x (2 * st + 2 * i + 1) ;; Ok (fadd sum (fadd (fmul re re) (fmul im im)))) s =
  Ok (fold_left fadd (bin_powers x st b) s).
Proof.
  intros x b st s L H1 H2 H3. unfold for_up. rewrite Z.sub_0_r. rewrite (fold_loop (fun i => bin_power x (st + i))).
  - unfold bin_powers. rewrite zfrom_map. reflexivity.
  - intros k s0 Hk. rewrite (rd_at x (2 * st + 2 * k)), (rd_at x (2 * st + 2 * k + 1)) by lia. cbn [bind]. unfold bin_power. destruct (Z.eqb_spec (st + k) 0); [lia|]. replace (2 * (st + k)) with (2 * st + 2 * k) by lia. reflexivity.
Qed.
(* the groups of four bins *)
Lemma groups_value : forall simd x g i v, length x = 256%nat -> 0 <= i -> i + 8 * Z.of_nat g <= 256 ->
  exists v', loop g i 8 (fun ptr vsum => v0 <- mm_loadu x ptr ;; v1 <- mm_loadu x (ptr + 4) ;; Ok (mm_add (mm_add vsum (mm_mul v0 v0)) (mm_mul v1 v1))) v = Ok v' /\
  hsum_power simd v' = lane_sum simd (lane0 v) (lane1 v) (lane2 v) (lane3 v) (map (fun k => let y := cell zero x k in fmul y y) (zfrom i (8 * g))).
Proof.
  intros simd x g. induction g as [|g IH]; intros i v L H0 H1.
  - exists v. split; [reflexivity|]. rewrite hsum_power_lanes. reflexivity.
  - cbn [loop]. unfold mm_loadu at 1 2. rewrite !(rd_at x) by lia. cbn [bind]. match goal with |- exists v', loop g (i + 8) 8 _ ?w = _ /\ _ => destruct (IH (i + 8) w L) as (v' & E & S) end; [lia|lia|].
    exists v'. split; [exact E|]. rewrite S. replace (8 * Datatypes.S g)%nat with (8 + 8 * g)%nat by lia. cbn [zfrom map lane_sum Nat.add]. cbn [mm_add mm_mul lane0 lane1 lane2 lane3]. cbv zeta.
    replace (i + 1 + 1) with (i + 2) by lia. replace (i + 2 + 1) with (i + 3) by lia. replace (i + 3 + 1) with (i + 4) by lia. replace (i + 4 + 2) with (i + 4 + 1 + 1) by lia. replace (i + 4 + 3) with (i + 4 + 1 + 1 + 1) by lia. replace (i + 8) with (i + 4 + 1 + 1 + 1 + 1) by lia. reflexivity.
Qed.
Lemma interior_value : forall simd x b st s, lanes4 simd = true -> length x = 256%nat -> 1 <= st -> st <= b -> b <= 128 ->
  let g := (b - st) / 4 in
  interior_vec simd x (2 * st) (b - st) s =
  Ok (if g =? 0 then s else fadd s (add_all simd (map (fun k => let y := cell zero x (2 * st + Z.of_nat k) in fmul y y) (seq 0 (Z.to_nat (8 * g))))), 2 * (st + 4 * g), b - (st + 4 * g)).
Proof.
  intros simd x b st s V L H1 H2 H3 g. pose proof (Z.div_mod (b - st) 4 ltac:(lia)) as D. pose proof (Z.mod_pos_bound (b - st) 4 ltac:(lia)) as M. fold g in D.
  unfold interior_vec. fold g. destruct (Z.leb_spec 4 (b - st)) as [C|C].
  - assert (G : 1 <= g) by lia. destruct (Z.eqb_spec g 0); [lia|].
    destruct (groups_value simd x (Z.to_nat g) (2 * st) mm_setzero L) as (v & E & S); [lia|lia|]. rewrite E. cbn [bind]. rewrite S. unfold add_all. cbv zeta. rewrite V.
    replace (8 * Z.to_nat g)%nat with (Z.to_nat (8 * g)) by lia. rewrite zfrom_map. change (lane0 mm_setzero) with (S754_zero false). change (lane1 mm_setzero) with (S754_zero false). change (lane2 mm_setzero) with (S754_zero false). change (lane3 mm_setzero) with (S754_zero false).
    f_equal. f_equal; [|lia]. f_equal. lia.
  - assert (G : g = 0) by lia. rewrite G. cbn [Z.eqb Z.mul]. rewrite Z.add_0_r. reflexivity.
Qed.
Lemma power_value : forall simd x a b, length x = 256%nat -> 0 <= a -> b <= 128 -> mbe_magnitude_squared_sum simd x a b = Ok (band_power simd x a b).
Proof.
  intros simd x a b L Ha Hb. unfold mbe_magnitude_squared_sum. destruct (Z.leb_spec b a) as [C|C].
  { unfold band_power. cbv zeta. destruct (lanes4 simd); [|rewrite bin_powers_nil by lia; reflexivity]. replace (Z.max 0 (b - Z.max a 1)) with 0 by lia. change (0 / 4) with 0. cbn [Z.eqb]. rewrite !bin_powers_nil by lia. reflexivity. }
  set (st := Z.max a 1). assert (K : (if a =? 0 then x0 <- rd x 0 ;; Ok (fadd fzero (fmul x0 x0), 1) else Ok (fzero, a)) = Ok (fold_left fadd (bin_powers x a (Z.min b st)) zero, st)).
  { destruct (Z.eqb_spec a 0) as [E|E].
    - rewrite (rd_at x 0) by lia. cbn [bind]. subst a. replace st with 1 by (unfold st; lia). replace (Z.min b 1) with 1 by lia. rewrite bin_powers_cons, bin_powers_nil by lia. reflexivity.
    - rewrite bin_powers_nil by (unfold st; lia). replace st with a by (unfold st; lia). reflexivity. }
  rewrite K. cbn [bind]. destruct (Z.ltb_spec 128 b); [lia|]. cbv zeta. assert (S1 : 1 <= st) by (unfold st; lia). assert (S2 : st <= b) by (unfold st; lia). unfold band_power. cbv zeta. fold st. destruct (lanes4 simd) eqn:V.
  - rewrite interior_value by (exact V || lia). cbn [bind]. cbv zeta. pose proof (Z.div_mod (b - st) 4 ltac:(lia)) as D. pose proof (Z.mod_pos_bound (b - st) 4 ltac:(lia)) as M.
    replace (Z.max 0 (b - st)) with (b - st) by lia. set (g := (b - st) / 4) in *. rewrite tail_value by lia. cbn [bind]. reflexivity.
  - cbn [bind]. rewrite tail_value by lia. cbn [bind]. f_equal. rewrite <- fold_left_app. f_equal. unfold st. destruct (Z.eq_dec a 0) as [->|N].
    + replace (Z.max 0 1) with 1 by lia. replace (Z.min b 1) with 1 by lia. rewrite (bin_powers_cons x 0 b) by lia. rewrite (bin_powers_cons x 0 1), (bin_powers_nil x (0 + 1) 1) by lia. reflexivity.
    + rewrite (bin_powers_nil x a) by lia. replace (Z.max a 1) with a by lia. reflexivity.
Qed.
(* scaling in vectors is scaling *)
Lemma normalize_scalar : forall simd scale u, length u = 256%nat -> normalize simd scale u = for_up 0 256 (fun i u => x <- rd u i ;; wr u i (fmul x scale)) u.
Proof.
  intros simd scale u L. unfold normalize. destruct (lanes4 simd); [|reflexivity]. unfold for_up. change (Z.to_nat (256 - 0)) with (4 * 64)%nat. apply (vec_update (fun y => fmul y scale)); [|lia|lia]. reflexivity.
Qed.
