(* Proofs about the Hamming codes (ecc.c). *)
From Coq Require Import ZArith List Bool Lia.
From Verif Require Import Res TabEcc TabEccLut MEcc SpecEcc PBase PEcc.
Import ListNotations.
Local Open Scope Z_scope.

(* ---------- closed form of the syndrome ---------- *)

Fixpoint parx (n : nat) (x acc : Z) : Z :=
  match n with O => acc | S n' => parx n' (Z.shiftr x 1) (Z.lxor acc (Z.land (Z.shiftr x 1) 1)) end.
Definition par15 (x : Z) : Z := parx 14 x (Z.land x 1).

Fixpoint hsum (gen : list Z) (i : Z) (v : Z) : Z :=
  match gen with
  | [] => 0
  | g :: gen' => Z.lxor (Z.shiftl (par15 (Z.land v g)) i) (hsum gen' (i + 1) v)
  end.
Definition hs (gen : list Z) (v : Z) : Z := hsum gen 0 v.

Lemma parx_lxor : forall n x y a b, parx n (Z.lxor x y) (Z.lxor a b) = Z.lxor (parx n x a) (parx n y b).
Proof.
  induction n as [|n IH]; intros x y a b; [reflexivity|]. cbn [parx].
  rewrite <- IH. rewrite Z.shiftr_lxor, land_lxor. f_equal.
  rewrite !Z.lxor_assoc. f_equal. rewrite <- !Z.lxor_assoc. f_equal. apply Z.lxor_comm.
Qed.

Lemma par15_lxor : forall x y, par15 (Z.lxor x y) = Z.lxor (par15 x) (par15 y).
Proof. intros x y. unfold par15. rewrite land_lxor. apply parx_lxor. Qed.

Lemma hsum_lxor : forall gen i a b, hsum gen i (Z.lxor a b) = Z.lxor (hsum gen i a) (hsum gen i b).
Proof.
  induction gen as [|g gen IH]; intros i a b; [reflexivity|]. cbn [hsum].
  rewrite land_lxor, par15_lxor, Z.shiftl_lxor, IH. xor_ac.
Qed.

Lemma hs_lxor : forall gen a b, hs gen (Z.lxor a b) = Z.lxor (hs gen a) (hs gen b).
Proof. intros. apply hsum_lxor. Qed.

Lemma land1_bit : forall x, is_bit (Z.land x 1).
Proof.
  intros x. change 1 with (Z.ones 1). rewrite Z.land_ones by lia. change (2 ^ 1) with 2.
  pose proof (Z.mod_pos_bound x 2 ltac:(lia)). unfold is_bit. lia.
Qed.

Lemma lxor_bit : forall a b, is_bit a -> is_bit b -> is_bit (Z.lxor a b).
Proof. intros a b [-> | ->] [-> | ->]; [left|right|right|left]; reflexivity. Qed.

Lemma parx_bit : forall n x a, is_bit a -> is_bit (parx n x a).
Proof.
  induction n as [|n IH]; intros x a Ha; [exact Ha|]. cbn [parx]. apply IH. apply lxor_bit; [exact Ha|apply land1_bit].
Qed.

Lemma par15_bit : forall x, is_bit (par15 x).
Proof. intros x. apply parx_bit, land1_bit. Qed.

Lemma parity_loop : forall n i x a, exists y,
  loop n i 1 (fun _ '(stmp, stmp2) =>
      Ok (Z.shiftr stmp 1, Z.lxor stmp2 (Z.land (Z.shiftr stmp 1) 1))) (x, a) = Ok (y, parx n x a).
Proof.
  induction n as [|n IH]; intros i x a; [exists x; reflexivity|]. cbn [loop bind parx].
  destruct (IH (i + 1) (Z.shiftr x 1) (Z.lxor a (Z.land (Z.shiftr x 1) 1))) as (y & Hy). exists y. exact Hy.
Qed.

Lemma parity_loop15 : forall x, exists y,
  loop 14 0 1 (fun _ '(stmp, stmp2) =>
      Ok (Z.shiftr stmp 1, Z.lxor stmp2 (Z.land (Z.shiftr stmp 1) 1))) (x, Z.land x 1) = Ok (y, par15 x).
Proof. intros x. exact (parity_loop 14 0 x (Z.land x 1)). Qed.

Lemma ham_syndrome_hs : forall g0 g1 g2 g3 v,
  ham_syndrome [g0; g1; g2; g3] v = Ok (hs [g0; g1; g2; g3] v).
Proof.
  intros g0 g1 g2 g3 v. unfold ham_syndrome, for_up. change (Z.to_nat (4 - 0)) with 4%nat.
  change (Z.to_nat (14 - 0)) with 14%nat.
  remember 14%nat as n14 eqn:E14. cbn [loop].
  change (rd [g0; g1; g2; g3] 0) with (@Ok Z g0). change (rd [g0; g1; g2; g3] (0 + 1)) with (@Ok Z g1).
  change (rd [g0; g1; g2; g3] (0 + 1 + 1)) with (@Ok Z g2). change (rd [g0; g1; g2; g3] (0 + 1 + 1 + 1)) with (@Ok Z g3).
  cbn [bind]. subst n14.
  destruct (parity_loop15 (Z.land v g0)) as (y0 & H0). rewrite H0. cbn [bind].
  destruct (parity_loop15 (Z.land v g1)) as (y1 & H1). rewrite H1. cbn [bind].
  destruct (parity_loop15 (Z.land v g2)) as (y2 & H2). rewrite H2. cbn [bind].
  destruct (parity_loop15 (Z.land v g3)) as (y3 & H3). rewrite H3. cbn [bind].
  unfold hs. cbn [hsum].
  destruct (par15_bit (Z.land v g0)) as [-> | ->], (par15_bit (Z.land v g1)) as [-> | ->],
    (par15_bit (Z.land v g2)) as [-> | ->], (par15_bit (Z.land v g3)) as [-> | ->]; reflexivity.
Qed.

Lemma hs_range : forall g0 g1 g2 g3 v, 0 <= hs [g0; g1; g2; g3] v < 16.
Proof.
  intros. unfold hs. cbn [hsum].
  destruct (par15_bit (Z.land v g0)) as [-> | ->], (par15_bit (Z.land v g1)) as [-> | ->],
    (par15_bit (Z.land v g2)) as [-> | ->], (par15_bit (Z.land v g3)) as [-> | ->]; vm_compute; split; congruence.
Qed.

Lemma length4 : forall {A} (l : list A), length l = 4%nat -> exists a b c d, l = [a; b; c; d].
Proof. intros A [|a [|b [|c [|d [|e l]]]]] H; try discriminate H. now exists a, b, c, d. Qed.

Lemma ham_syndrome_gen : forall gen v, length gen = 4%nat -> ham_syndrome gen v = Ok (hs gen v).
Proof. intros gen v H. destruct (length4 gen H) as (a & b & c & d & ->). apply ham_syndrome_hs. Qed.

Lemma hs_range_gen : forall gen v, length gen = 4%nat -> 0 <= hs gen v < 16.
Proof. intros gen v H. destruct (length4 gen H) as (a & b & c & d & ->). apply hs_range. Qed.

(* ---------- weight-one patterns ---------- *)

Lemma weight_le_1 : forall n e, 0 <= e < 2 ^ Z.of_nat n -> weight n e <= 1 ->
  e = 0 \/ exists i, (i < n)%nat /\ e = 2 ^ Z.of_nat i.
Proof.
  induction n as [|n IH]; intros e He Hw; [left; change (2 ^ Z.of_nat 0) with 1 in He; lia|].
  cbn [weight] in Hw. destruct (Z.testbit e (Z.of_nat n)) eqn:E; cbn [Z.b2z] in Hw.
  - right. exists n. split; [lia|]. pose proof (weight_nonneg n e) as Hn.
    apply (eq_of_testbit (S n)); [exact He| |].
    + rewrite Nat2Z.inj_succ, Z.pow_succ_r by lia. pose proof (Z.pow_pos_nonneg 2 (Z.of_nat n) ltac:(lia) ltac:(lia)). lia.
    + intros i Hi. destruct (Nat.eq_dec i n) as [-> | Hne].
      * rewrite Z.pow2_bits_true by lia. exact E.
      * rewrite Z.pow2_bits_false by lia. apply (weight_0_testbit n); lia.
  - assert (He' : 0 <= e < 2 ^ Z.of_nat n).
    { split; [lia|]. apply testbit_top_clear; [lia| |exact E].
      replace (Z.of_nat n + 1) with (Z.of_nat (S n)) by lia. exact He. }
    destruct (IH e He' ltac:(lia)) as [-> | (i & Hi & ->)]; [left; reflexivity|right; exists i; split; [lia|reflexivity]].
Qed.

(* ---------- the decoder for any generator/table pair that fits together ---------- *)

Definition lut_fits (gen lut : list Z) : Prop :=
  (forall s, 0 <= s < 16 -> exists m, rd lut s = Ok m /\ hs gen m = s /\ 0 <= m < 2 ^ 15
     /\ weight 15 m = (if 0 <? s then 1 else 0))
  /\ rd lut 0 = Ok 0
  /\ (forall i, (i < 15)%nat -> rd lut (hs gen (2 ^ Z.of_nat i)) = Ok (2 ^ Z.of_nat i)).

Lemma fresh_15 : @fresh Z 15 = repeat None (0 + 15) ++ [].
Proof. reflexivity. Qed.

Lemma all_init_some : forall {A} (l : list A), all_init (map Some l) = Ok l.
Proof. intros A. induction l as [|x l IH]; [reflexivity|]. cbn [map all_init init_val bind]. now rewrite IH. Qed.

Lemma ham_unpack : forall block, exists b,
  for_down 14 0 (fun i '(out, block) =>
      out' <- wr out i (Some (to_char (Z.shiftr (Z.land block 0x4000) 14))) ;;
      Ok (out', to_u32 (Z.shiftl block 1))) (fresh 15, block) = Ok (map Some (bits_of 15 block), b).
Proof.
  intros block. destruct (unpack_loop 14 15 0 block [] ltac:(lia) ltac:(lia)) as (b & Hb). exists b.
  rewrite bits_of_testbit, map_map. rewrite !app_nil_r in Hb. exact Hb.
Qed.

Lemma ham_decode : forall gen lut, length gen = 4%nat -> lut_fits gen lut ->
  forall l, is_bits 15 l -> exists m, rd lut (hs gen (val l)) = Ok m /\ 0 <= m < 2 ^ 15 /\ hs gen m = hs gen (val l)
    /\ hamming1511_with gen lut l = Ok (bits_of 15 (Z.lxor (val l) m), weight 15 m) /\ weight 15 m <= 1.
Proof.
  intros gen lut Hg (Hlut & Hl0 & _) l Hl.
  destruct (Hlut _ (hs_range_gen gen (val l) Hg)) as (m & Hm & Hhs & Hmr & Hw).
  exists m. split; [exact Hm|]. split; [exact Hmr|]. split; [exact Hhs|]. split.
  - unfold hamming1511_with. change 15 with (Z.of_nat 15) at 1. rewrite (pack_bits_val 15 l Hl) by lia. cbn [bind].
    rewrite ham_syndrome_gen by exact Hg. cbn [bind].
    destruct (0 <? hs gen (val l)) eqn:E.
    + rewrite Hm. cbn [bind]. destruct (ham_unpack (Z.lxor (val l) m)) as (b & Hb). rewrite Hb. cbn [bind].
      rewrite all_init_some. cbn [bind]. now rewrite Hw.
    + cbn [bind]. pose proof (hs_range_gen gen (val l) Hg) as Hr. apply Z.ltb_ge in E.
      assert (E0 : hs gen (val l) = 0) by lia. rewrite E0, Hl0 in Hm. injection Hm as <-.
      destruct (ham_unpack (val l)) as (b & Hb). rewrite Hb. cbn [bind].
      rewrite all_init_some. cbn [bind]. now rewrite Hw, Z.lxor_0_r.
  - rewrite Hw. destruct (0 <? hs gen (val l)); lia.
Qed.

(* nearest codeword, where a codeword is a word with zero syndrome *)
Lemma ham_full_gen : forall gen lut, length gen = 4%nat -> lut_fits gen lut ->
  forall l, is_bits 15 l ->
  exists out e, hamming1511_with gen lut l = Ok (out, e) /\ is_bits 15 out /\ hs gen (val out) = 0
  /\ e = hdist l out /\ 0 <= e <= 1
  /\ (forall cw, is_bits 15 cw -> hs gen (val cw) = 0 -> hdist l cw <= 1 -> out = cw).
Proof.
  intros gen lut Hg Hfit l Hl.
  destruct (ham_decode gen lut Hg Hfit l Hl) as (m & Hm & Hmr & Hhs & Hdec & Hw).
  pose proof (is_bits_val_range 15 l Hl) as Hr.
  assert (Hor : 0 <= Z.lxor (val l) m < 2 ^ 15) by (apply lxor_range; [exact Hr|exact Hmr|lia]).
  exists (bits_of 15 (Z.lxor (val l) m)), (weight 15 m).
  split; [exact Hdec|]. split; [apply bits_of_bits|]. split.
  { rewrite val_bits_of by exact Hor. rewrite hs_lxor, Hhs. apply Z.lxor_nilpotent. }
  split.
  { rewrite (hdist_weight 15) by (exact Hl || apply bits_of_bits). rewrite val_bits_of by exact Hor.
    now rewrite lxor_cancel. }
  split; [pose proof (weight_nonneg 15 m); lia|].
  intros cw Hcw Hc0 Hd. rewrite (hdist_weight 15) in Hd by assumption.
  pose proof (is_bits_val_range 15 cw Hcw) as Hcr.
  set (e := Z.lxor (val l) (val cw)) in *.
  assert (He : 0 <= e < 2 ^ 15) by (apply lxor_range; [exact Hr|exact Hcr|lia]).
  assert (Hes : hs gen e = hs gen (val l)) by (unfold e; rewrite hs_lxor, Hc0; apply Z.lxor_0_r).
  assert (Hme : m = e).
  { destruct Hfit as (_ & Hl0 & Hl1). destruct (weight_le_1 15 e He Hd) as [E | (i & Hi & E)].
    - rewrite E in *. assert (H0 : hs gen 0 = 0).
      { pose proof (hs_lxor gen 0 0) as H. rewrite Z.lxor_0_l, Z.lxor_nilpotent in H. exact H. }
      rewrite <- Hes, H0, Hl0 in Hm. now injection Hm.
    - rewrite <- Hes, E, (Hl1 i Hi) in Hm. injection Hm as Hm. rewrite <- Hm. symmetry; exact E. }
  apply (val_inj 15); [apply bits_of_bits|exact Hcw|]. rewrite val_bits_of by exact Hor.
  rewrite Hme. unfold e. apply lxor_cancel.
Qed.

Ltac by_cases16 s Hs :=
  let H := fresh in
  assert (H : s = 0 \/ s = 1 \/ s = 2 \/ s = 3 \/ s = 4 \/ s = 5 \/ s = 6 \/ s = 7 \/ s = 8 \/ s = 9
     \/ s = 10 \/ s = 11 \/ s = 12 \/ s = 13 \/ s = 14 \/ s = 15) by lia;
  repeat (destruct H as [H | H]; [subst s|]); try subst s.

Lemma lut_fits_7200 : lut_fits hammingGenerator ham1511_lut.
Proof.
  split; [|split; [reflexivity|]].
  - intros s Hs. by_cases16 s Hs; eexists; (split; [reflexivity|]); vm_compute; repeat split; congruence.
  - intros i Hi. do 15 (destruct i as [|i]; [vm_compute; reflexivity|]). lia.
Qed.

Lemma lut_fits_7100 : lut_fits imbe7100x4400hammingGenerator ham1511_7100_lut.
Proof.
  split; [|split; [reflexivity|]].
  - intros s Hs. by_cases16 s Hs; eexists; (split; [reflexivity|]); vm_compute; repeat split; congruence.
  - intros i Hi. do 15 (destruct i as [|i]; [vm_compute; reflexivity|]). lia.
Qed.

(* ---------- 7200x4400: the labelled code ---------- *)

Lemma linear_label_sum : forall (f : Z -> Z), f 0 = 0 -> (forall a b, f (Z.lxor a b) = Z.lxor (f a) (f b)) ->
  forall l k, Forall is_bit l ->
  f (Z.shiftl (val l) (Z.of_nat k)) = label_sum (map (fun i => f (2 ^ Z.of_nat i)) (seq k (length l))) l.
Proof.
  intros f F0 FL. induction l as [|b l IH]; intros k Hb.
  - cbn [val length seq map label_sum]. rewrite Z.shiftl_0_l. exact F0.
  - inversion Hb as [|? ? Hb0 Hl]; subst. cbn [val length seq map label_sum]. rewrite <- (IH (S k) Hl).
    assert (E : Z.shiftl (b + 2 * val l) (Z.of_nat k)
              = Z.lxor (if b =? 1 then 2 ^ Z.of_nat k else 0) (Z.shiftl (val l) (Z.of_nat (S k)))).
    { replace (b + 2 * val l) with (Z.lxor b (Z.shiftl (val l) 1)).
      - rewrite Z.shiftl_lxor, Z.shiftl_shiftl by lia. rewrite Nat2Z.inj_succ. rewrite <- Z.add_1_l. f_equal.
        destruct Hb0 as [-> | ->]; [apply Z.shiftl_0_l|]. cbn [Z.eqb Pos.eqb]. rewrite Z.shiftl_mul_pow2 by lia. lia.
      - rewrite Z.lxor_comm, lxor_disjoint_add by (destruct Hb0 as [-> | ->]; lia).
        rewrite Z.shiftl_mul_pow2 by lia. change (2 ^ 1) with 2. lia. }
    rewrite E, FL. f_equal. destruct (b =? 1); [reflexivity|exact F0].
Qed.

Lemma hs_0 : forall gen, hs gen 0 = 0.
Proof. intros gen. pose proof (hs_lxor gen 0 0) as H. rewrite Z.lxor_0_l, Z.lxor_nilpotent in H. exact H. Qed.

Lemma hs_label_sum : forall gen l, Forall is_bit l ->
  hs gen (val l) = label_sum (map (fun i => hs gen (2 ^ Z.of_nat i)) (seq 0 (length l))) l.
Proof.
  intros gen l Hl. rewrite <- (linear_label_sum (hs gen) (hs_0 gen) (hs_lxor gen) l 0 Hl).
  change (Z.of_nat 0) with 0. now rewrite Z.shiftl_0_r.
Qed.

(* the labels of the specification are those of the code with the four bits in opposite order *)
Definition rev4 (x : Z) : Z :=
  Z.lxor (if Z.testbit x 0 then 8 else 0) (Z.lxor (if Z.testbit x 1 then 4 else 0)
    (Z.lxor (if Z.testbit x 2 then 2 else 0) (if Z.testbit x 3 then 1 else 0))).

Lemma rev4_lxor : forall a b, rev4 (Z.lxor a b) = Z.lxor (rev4 a) (rev4 b).
Proof.
  intros a b. unfold rev4. rewrite !Z.lxor_spec.
  destruct (Z.testbit a 0), (Z.testbit b 0), (Z.testbit a 1), (Z.testbit b 1),
    (Z.testbit a 2), (Z.testbit b 2), (Z.testbit a 3), (Z.testbit b 3); reflexivity.
Qed.

Lemma label_sum_map : forall labels l, label_sum (map rev4 labels) l = rev4 (label_sum labels l).
Proof.
  induction labels as [|a labels IH]; intros [|b l]; try reflexivity. cbn [map label_sum].
  rewrite IH, rev4_lxor. f_equal. destruct (b =? 1); reflexivity.
Qed.

Lemma label_sum_range : forall labels l, Forall (fun a => 0 <= a < 2 ^ 4) labels -> 0 <= label_sum labels l < 2 ^ 4.
Proof.
  induction labels as [|a labels IH]; intros l H; [cbn; lia|]. destruct l as [|b l]; [cbn; lia|].
  inversion H; subst. cbn [label_sum]. apply lxor_range; [destruct (b =? 1); lia|apply IH; assumption|lia].
Qed.

Lemma rev4_zero : forall x, 0 <= x < 2 ^ 4 -> rev4 x = 0 -> x = 0.
Proof. intros x Hx. change (2 ^ 4) with 16 in Hx. by_cases16 x Hx; vm_compute; congruence. Qed.

Lemma hamming_word_hs : forall l, is_bits 15 l -> (label_sum hamming_labels l = 0 <-> hs hammingGenerator (val l) = 0).
Proof.
  intros l [Hlen Hb]. rewrite hs_label_sum by exact Hb. rewrite Hlen.
  replace (map (fun i => hs hammingGenerator (2 ^ Z.of_nat i)) (seq 0 15)) with (map rev4 hamming_labels)
    by (vm_compute; reflexivity).
  rewrite label_sum_map. split.
  - intros ->. reflexivity.
  - apply rev4_zero. apply label_sum_range. unfold hamming_labels. repeat (constructor; [lia|]). constructor.
Qed.

Lemma hamming_full : forall l, is_bits 15 l ->
  exists out e, mbe_hamming1511 l = Ok (out, e) /\ hamming_word out /\ e = hdist l out /\ 0 <= e <= 1
  /\ (forall cw, hamming_word cw -> hdist l cw <= 1 -> out = cw).
Proof.
  intros l Hl. destruct (ham_full_gen hammingGenerator ham1511_lut eq_refl lut_fits_7200 l Hl) as (out & e & Hd & Hb & H0 & He & Hr & Hu).
  exists out, e. split; [exact Hd|]. split; [split; [exact Hb|now apply hamming_word_hs]|].
  split; [exact He|]. split; [exact Hr|]. intros cw [Hcb Hc0] Hcd.
  apply Hu; [exact Hcb|now apply hamming_word_hs|exact Hcd].
Qed.

(* ---------- 7100x4400: the cyclic code ---------- *)

Lemma poly7100_range : 0 <= hamming7100_poly < 2 ^ (4 + 1).
Proof. vm_compute. split; congruence. Qed.

Lemma hs7100_low : forall r, 0 <= r < 2 ^ 4 -> hs imbe7100x4400hammingGenerator r = 0 -> r = 0.
Proof. intros r Hr. change (2 ^ 4) with 16 in Hr. by_cases16 r Hr; vm_compute; congruence. Qed.

Lemma hs7100_code : forall q, hs imbe7100x4400hammingGenerator (clmul 11 q hamming7100_poly) = 0.
Proof.
  intros q. apply clmul_linear_0; [apply hs_0|apply hs_lxor|]. intros i Hi.
  do 11 (destruct i as [|i]; [vm_compute; reflexivity|]). lia.
Qed.

Lemma hamming7100_hs : forall v, 0 <= v < 2 ^ 15 ->
  ((exists q, 0 <= q < 2 ^ 11 /\ v = clmul 11 q hamming7100_poly) <-> hs imbe7100x4400hammingGenerator v = 0).
Proof.
  intros v Hv. split.
  - intros (q & _ & ->). apply hs7100_code.
  - intros H0.
    destruct (clmul_div hamming7100_poly 4 ltac:(lia) poly7100_range ltac:(reflexivity) 11 v Hv) as (q & r & Hq & Hr & E).
    rewrite E, hs_lxor, hs7100_code, Z.lxor_0_l in H0. apply hs7100_low in H0; [|exact Hr]. subst r.
    exists q. split; [exact Hq|]. now rewrite Z.lxor_0_r in E.
Qed.

Lemma hamming7100_full : forall l, is_bits 15 l ->
  exists out e, mbe_7100x4400hamming1511 l = Ok (out, e) /\ hamming7100_word out /\ e = hdist l out /\ 0 <= e <= 1
  /\ (forall cw, hamming7100_word cw -> hdist l cw <= 1 -> out = cw).
Proof.
  intros l Hl. destruct (ham_full_gen imbe7100x4400hammingGenerator ham1511_7100_lut eq_refl lut_fits_7100 l Hl) as (out & e & Hd & Hb & H0 & He & Hr & Hu).
  exists out, e. split; [exact Hd|].
  split; [split; [exact Hb|apply hamming7100_hs; [apply (is_bits_val_range 15 out Hb)|exact H0]]|].
  split; [exact He|]. split; [exact Hr|]. intros cw [Hcb Hc0] Hcd.
  apply Hu; [exact Hcb| |exact Hcd]. apply hamming7100_hs; [apply (is_bits_val_range 15 cw Hcb)|exact Hc0].
Qed.
