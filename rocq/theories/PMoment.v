(* The sums and the scaling of spectral amplitude enhancement, in all builds. *)
From Coq Require Import ZArith List Bool Lia.
From Verif Require Import Res F32 MParms MAdaptive MSse MUnvoiced MSynth SpecSum PRun PArr PFloat PSse.
Import ListNotations.
Local Open Scope Z_scope.

Lemma square_sign : forall m, (if flt m fzero then fmul (fopp m) (fopp m) else fmul m m) = fmul m m.
Proof. intros m. destruct (flt m fzero); [|reflexivity]. destruct m as [[|]|[|]| |[|] n e]; reflexivity. Qed.
Lemma short_all : forall simd xs, (length xs < 4)%nat -> add_all simd xs = fold_left fadd xs fzero.
Proof. intros simd xs H. unfold add_all. cbv zeta. destruct simd; cbn [lanes4]; [reflexivity|rewrite lanes_short by exact H; reflexivity..]. Qed.
Lemma add_lanes : forall simd xs, lanes4 simd = true -> add_all simd xs = lane_sum simd (lane0 mm_setzero) (lane1 mm_setzero) (lane2 mm_setzero) (lane3 mm_setzero) xs.
Proof. intros simd xs V. unfold add_all. cbv zeta. rewrite V. reflexivity. Qed.
Lemma quarter : forall L, 0 <= L -> exists r, (r < 4)%nat /\ Z.to_nat L = (4 * Z.to_nat (L / 4) + r)%nat /\ 1 + Z.of_nat (4 * Z.to_nat (L / 4)) = 1 + 4 * (L / 4) /\
  Z.to_nat (L + 1 - (1 + 4 * (L / 4))) = r /\ 1 + Z.of_nat (4 * Z.to_nat (L / 4) + r) = L + 1 /\ 0 <= L / 4.
Proof.
  intros L HL. pose proof (Z.div_mod L 4 ltac:(lia)) as D. pose proof (Z.mod_pos_bound L 4 ltac:(lia)) as M. exists (Z.to_nat (L mod 4)). repeat split; lia.
Qed.
Lemma loop_range : forall n k L, 0 <= L -> k < Z.of_nat (Z.to_nat (L / 4)) -> n = 1 + k * 4 -> 0 <= k -> 1 <= n /\ n + 3 <= L.
Proof. intros n k L HL Hk E H0. pose proof (Z.div_mod L 4 ltac:(lia)). pose proof (Z.mod_pos_bound L 4 ltac:(lia)). lia. Qed.

Lemma energies_value : forall simd L Ml tab (m c : Z -> f32), 0 <= L -> (forall l, 1 <= l <= L -> rd Ml l = Ok (m l) /\ rdi tab l = Ok (c l)) ->
  enh_energies simd L Ml tab =
  Ok (add_all simd (map (fun l => fmul (m l) (m l)) (zfrom 1 (Z.to_nat L))), add_all simd (map (fun l => fmul (fmul (m l) (m l)) (c l)) (zfrom 1 (Z.to_nat L)))).
Proof.
  intros simd L Ml tab m c HL H. set (f := fun l => fmul (m l) (m l)). set (h := fun l => fmul (fmul (m l) (m l)) (c l)).
  assert (TAIL : forall l n a b, 1 <= l -> l + Z.of_nat n = L + 1 -> enh_energies_from l L Ml tab (a, b) = Ok (fold_left fadd (map f (zfrom l n)) a, fold_left fadd (map h (zfrom l n)) b)).
  { intros l n a b Hl Hn. unfold enh_energies_from, for_up. replace (Z.to_nat (L + 1 - l)) with n by lia.
    match goal with |- loop n l 1 ?bd _ = _ => destruct (loop_pair (fun k s => fadd s (f k)) (fun k s => fadd s (h k)) bd 1 n l a b) as (a' & b' & E & EA & EB) end.
    - intros k x y Hk. destruct (H (l + k * 1)) as [H1 H2]; [lia|]. rewrite H1, H2. reflexivity.
    - rewrite E. rewrite (fold_loop f) in EA by reflexivity. rewrite (fold_loop h) in EB by reflexivity. congruence. }
  unfold enh_energies. destruct (lanes4 simd && (4 <=? L)) eqn:C.
  - apply andb_true_iff in C as [V C]. apply Z.leb_le in C. destruct (quarter L HL) as (r & Hr & EL & E1 & E2 & E3 & HQ). unfold enh_energies_vec.
    set (q := Z.to_nat (L / 4)) in *.
    pose (vf := fun (g : Z -> f32) k v => mm_add v (m4 (g k) (g (k + 1)) (g (k + 2)) (g (k + 3)))).
    match goal with |- context [loop q 1 4 ?bd _] => destruct (loop_pair (vf f) (vf h) bd 4 q 1 mm_setzero mm_setzero) as (va & vb & E & EA & EB) end.
    { intros k x y Hk. destruct (loop_range (1 + k * 4) k L HL) as [R1 R2]; [lia|reflexivity|lia|].
      unfold mm_loadu, mm_loadui. destruct (H (1 + k * 4)) as [-> ->]; [lia|]. destruct (H (1 + k * 4 + 1)) as [-> ->]; [lia|]. destruct (H (1 + k * 4 + 2)) as [-> ->]; [lia|]. destruct (H (1 + k * 4 + 3)) as [-> ->]; [lia|]. reflexivity. }
    rewrite E. cbn [bind]. rewrite (TAIL (1 + 4 * (L / 4)) r) by lia. rewrite <- E1.
    pose proof (fun g => lanes_loop simd g (fun k v => Ok (vf g k v)) (fun k s => Ok (fadd s (g k))) q r 1 mm_setzero Hr (fun k v _ _ => eq_refl) (fun k s _ => eq_refl)) as LL.
    pose proof (LL f) as Lf. pose proof (LL h) as Lh. rewrite EA in Lf. rewrite EB in Lh. cbn [bind] in Lf, Lh. rewrite (fold_loop f) in Lf by reflexivity. rewrite (fold_loop h) in Lh by reflexivity.
    rewrite EL. rewrite ?(add_lanes simd _ V). congruence.
  - rewrite (TAIL 1 (Z.to_nat L)) by lia. destruct (lanes4 simd) eqn:V; [|unfold add_all; rewrite V; reflexivity]. cbn [andb] in C. apply Z.leb_gt in C. rewrite !short_all by (rewrite map_length, zfrom_length; lia). reflexivity.
Qed.
Lemma sum_value : forall simd L Ml (m : Z -> f32), 0 <= L -> (forall l, 1 <= l <= L -> rd Ml l = Ok (m l)) ->
  enh_sum simd L Ml = Ok (add_all simd (map (fun l => fmul (m l) (m l)) (zfrom 1 (Z.to_nat L)))).
Proof.
  intros simd L Ml m HL H. set (f := fun l => fmul (m l) (m l)).
  assert (BODY : forall k s, 1 <= k <= L -> (m0 <- rd Ml k ;; let m1 := if flt m0 fzero then fopp m0 else m0 in Ok (fadd s (fmul m1 m1))) = Ok (fadd s (f k))).
  { intros k s Hk. rewrite H by exact Hk. cbn [bind]. cbv zeta. unfold f. rewrite <- (square_sign (m k)). destruct (flt (m k) fzero); reflexivity. }
  unfold enh_sum. destruct (lanes4 simd && (4 <=? L)) eqn:C.
  - apply andb_true_iff in C as [V C]. apply Z.leb_le in C. destruct (quarter L HL) as (r & Hr & EL & E1 & E2 & E3 & HQ). unfold enh_sum_from, for_up.
    rewrite E2, <- E1, EL. rewrite ?(add_lanes simd _ V). apply (lanes_loop simd f); [exact Hr| |].
    + intros k v K1 K2. unfold mm_loadu. rewrite (H k), (H (k + 1)), (H (k + 2)), (H (k + 3)) by lia. cbn [bind]. cbv zeta. unfold mm_abs, mm_mul. cbn [lane0 lane1 lane2 lane3]. rewrite !abs_square. reflexivity.
    + intros k s Hk. apply BODY. lia.
  - unfold enh_sum_from, for_up. replace (Z.to_nat (L + 1 - 1)) with (Z.to_nat L) by lia. rewrite (fold_loop f).
    + destruct (lanes4 simd) eqn:V; [|unfold add_all; rewrite V; reflexivity]. cbn [andb] in C. apply Z.leb_gt in C. rewrite short_all by (rewrite map_length, zfrom_length; lia). reflexivity.
    + intros k s Hk. apply BODY. lia.
Qed.
(* scaling four at a time is scaling *)
Lemma scale_value : forall simd L gamma Ml, 0 <= L < Z.of_nat (length Ml) -> enh_scale simd L gamma Ml = for_up 1 (L + 1) (fun l Ml => m <- rd Ml l ;; wr Ml l (fmul gamma m)) Ml.
Proof.
  intros simd L gamma Ml HL. unfold enh_scale. destruct (lanes4 simd && (4 <=? L)); [|reflexivity].
  destruct (quarter L ltac:(lia)) as (r & Hr & EL & E1 & E2 & E3 & HQ). unfold enh_scale_from, for_up. replace (Z.to_nat (L + 1 - 1)) with (4 * Z.to_nat (L / 4) + r)%nat by lia. rewrite loop_app.
  rewrite (vec_update (fun y => fmul y gamma)); [|reflexivity|lia|lia].
  assert (X : forall n i u, loop n i 1 (upd (fun y => fmul y gamma)) u = loop n i 1 (fun l Ml => m <- rd Ml l ;; wr Ml l (fmul gamma m)) u).
  { intros n. induction n as [|n IH]; intros i u; [reflexivity|]. cbn [loop]. unfold upd at 1. destruct (rd u i) as [x|]; [|reflexivity]. cbn [bind]. rewrite mul_comm. destruct (wr u i (fmul gamma x)); [|reflexivity]. cbn [bind]. apply IH. }
  rewrite X. destruct (loop _ 1 1 _ Ml) as [u|]; [|reflexivity]. cbn [bind]. rewrite E1, E2. reflexivity.
Qed.
