(* Proofs: damage to one code word stays there. *)
From Coq Require Import ZArith List Bool Lia.
From Verif Require Import Res TabEcc MEcc MFrame SpecEcc SpecFrame SpecLocal PBase PAmbeDec PEcc PHam PLoop PFrameAmbe PFrameImbe PFrame7200 PConv PFrame7100.
Import ListNotations.
Local Open Scope Z_scope.

Lemma slice_over : forall (A : Type) (a b : list A) k m n, length a = k -> slice (k + m) n (a ++ b) = slice m n b.
Proof. intros A a b k m n L. unfold slice. rewrite skipn_app, L. rewrite (skipn_all2 a) by lia. replace (k + m - k)%nat with m by lia. reflexivity. Qed.
Lemma slice_head : forall (A : Type) (a b : list A) n, length a = n -> slice 0 n (a ++ b) = a.
Proof. intros A a b n L. unfold slice. cbn [skipn]. rewrite firstn_app, L, Nat.sub_diag. cbn [firstn]. rewrite app_nil_r. now apply firstn_all2; lia. Qed.
Lemma slice_whole : forall (A : Type) (a : list A) n, length a = n -> slice 0 n a = a.
Proof. intros A a n L. unfold slice. cbn [skipn]. apply firstn_all2. lia. Qed.

(* the data cells determine the code word *)
Lemma linear_inj : forall (f : Z -> Z) k m a b, (forall x y, f (Z.lxor x y) = Z.lxor (f x) (f y)) -> (forall r, 0 <= r < 2 ^ Z.of_nat k -> f r = 0 -> r = 0) ->
  is_bits (k + m) a -> is_bits (k + m) b -> f (val a) = 0 -> f (val b) = 0 -> skipn k a = skipn k b -> a = b.
Proof.
  intros f k m a b Lin Inj A B Fa Fb S. apply (val_inj (k + m)); [exact A|exact B|]. destruct A as [La Ba], B as [Lb Bb].
  assert (V : forall l : list Z, length l = (k + m)%nat -> Forall is_bit l -> val l = Z.lxor (Z.shiftl (val (skipn k l)) (Z.of_nat k)) (val (firstn k l)) /\ 0 <= val (firstn k l) < 2 ^ Z.of_nat k).
  { intros l L Bl. assert (R : 0 <= val (firstn k l) < 2 ^ Z.of_nat k). { rewrite <- (firstn_length_le l (n := k)) at 3 by lia. apply val_range. now apply Forall_firstn. }
    split; [|exact R]. rewrite lxor_disjoint_add by (lia || exact R). rewrite Z.shiftl_mul_pow2 by lia. rewrite <- (firstn_skipn k l) at 1. rewrite val_app, firstn_length_le by lia. lia. }
  destruct (V a La Ba) as [Va Ra]. destruct (V b Lb Bb) as [Vb Rb]. rewrite Va, Vb, S in *.
  assert (E : Z.lxor (val (firstn k a)) (val (firstn k b)) = 0).
  { apply Inj; [apply lxor_range; (lia || assumption)|]. rewrite Lin. rewrite Lin in Fa, Fb. apply Z.lxor_eq in Fa, Fb. rewrite <- Fa, <- Fb. apply Z.lxor_nilpotent. }
  apply Z.lxor_eq in E. now rewrite E.
Qed.
Lemma golay_inj : forall a b, golay_word a -> golay_word b -> skipn 11 a = skipn 11 b -> a = b.
Proof.
  intros a b [A Ca] [B Cb] S. apply (linear_inj synd 11 12 a b); auto; [apply synd_lxor|intros r Hr E; now rewrite synd_lowr in E|apply codeword_synd, Ca|apply codeword_synd, Cb].
Qed.
Lemma hs_low : forall gen, In gen [hammingGenerator; imbe7100x4400hammingGenerator] -> forall r, 0 <= r < 2 ^ Z.of_nat 4 -> hs gen r = 0 -> r = 0.
Proof.
  intros gen HG r Hr. change (2 ^ Z.of_nat 4) with 16 in Hr.
  assert (K : forallb (fun g => forallb (fun r => (r =? 0) || negb (hs g r =? 0)) (map Z.of_nat (seq 0 16))) [hammingGenerator; imbe7100x4400hammingGenerator] = true) by (vm_compute; reflexivity).
  rewrite forallb_forall in K. specialize (K gen HG). rewrite forallb_forall in K. specialize (K r). intros E. rewrite E in K. cbn [Z.eqb negb] in K. rewrite orb_false_r in K. apply Z.eqb_eq, K.
  apply in_map_iff. exists (Z.to_nat r). split; [lia|]. apply in_seq. lia.
Qed.
Lemma hamming_inj : forall a b, hamming_word a -> hamming_word b -> skipn 4 a = skipn 4 b -> a = b.
Proof.
  intros a b [A Ca] [B Cb] S. apply hamming_word_hs in Ca; [|exact A]. apply hamming_word_hs in Cb; [|exact B].
  apply (linear_inj (hs hammingGenerator) 4 11 a b); auto; [apply hs_lxor|apply hs_low; left; reflexivity].
Qed.
Lemma hamming7100_inj : forall a b, hamming7100_word a -> hamming7100_word b -> skipn 4 a = skipn 4 b -> a = b.
Proof.
  intros a b [A Ca] [B Cb] S. apply hamming7100_hs in Ca; [|exact (is_bits_val_range 15 a A)]. apply hamming7100_hs in Cb; [|exact (is_bits_val_range 15 b B)].
  apply (linear_inj (hs imbe7100x4400hammingGenerator) 4 11 a b); auto; [apply hs_lxor|apply hs_low; right; left; reflexivity].
Qed.
Lemma rev_eq : forall (a b : list Z), rev a = rev b -> a = b.
Proof. intros a b E. rewrite <- (rev_involutive a), <- (rev_involutive b). now rewrite E. Qed.

Lemma data_iff : forall P c w, golay_word c -> golay_word w -> (P <-> c = w) -> (P <-> rev (skipn 11 c) = rev (skipn 11 w)).
Proof. intros P c w C W H. rewrite H. split; [now intros ->|]. intros E. apply golay_inj; auto. now apply rev_eq. Qed.
Lemma ham_iff : forall (word : list Z -> Prop) P c w, (forall a b, word a -> word b -> skipn 4 a = skipn 4 b -> a = b) -> word c -> word w -> (P <-> c = w) -> (P <-> rev (skipn 4 c) = rev (skipn 4 w)).
Proof. intros word P c w I C W H. rewrite H. split; [now intros ->|]. intros E. apply I; auto. now apply rev_eq. Qed.
Lemma plain_iff : forall n (a b : list Z), length (firstn n a) = length (firstn n b) -> (hdist (firstn n a) (firstn n b) <= 0 <-> rev (firstn n a) = rev (firstn n b)).
Proof.
  intros n a b L. split.
  - intros H. f_equal. apply hdist_0_eq; [exact L|]. pose proof (hdist_nonneg (firstn n a) (firstn n b)). lia.
  - intros E. apply rev_eq in E. rewrite E, hdist_refl. lia.
Qed.
Lemma near_golay : forall l w cw e, golay_word w -> length l = 23%nat -> golay_fix l cw e -> (hdist l w <= 3 <-> cw = w) /\ 0 <= e <= Z.min 3 (hdist l w).
Proof.
  intros l w cw e W L (C & D & U & E & B). assert (G : hdist l w <= 3 -> cw = w) by (intros H; symmetry; now apply U). split; [split; [exact G|intros <-; exact D]|].
  destruct (Z.le_gt_cases (hdist l w) 3) as [H|H]; [|lia]. rewrite (G H) in E. pose proof (hdist_skipn_le 11 l w ltac:(destruct W as [[W _] _]; lia)). lia.
Qed.
Lemma scr_dist : forall k key r w, Forall is_bit key -> is_bits (length key) r -> is_bits (length key) w -> hdist (skipn k (scramble key r)) (skipn k w) = hdist (skipn k r) (skipn k (scramble key w)).
Proof.
  intros k key r w Bk [Lr Br] [Lw Bw]. rewrite <- (scramble_involutive key w) at 1 by lia. apply hdist_scramble; auto; [rewrite scramble_length; lia|].
  unfold scramble. rewrite firstn_all2, skipn_all2, app_nil_r by lia. apply xor_bits_bits; [exact Bw|now apply Forall_rev].
Qed.
Lemma near_golay_row : forall key w r s cw e, length key = 23%nat -> Forall is_bit key -> is_bits 23 r -> golay_word w -> s = scramble key w -> golay_fix (scramble key r) cw e ->
  (hdist r s <= 3 <-> cw = w) /\ 0 <= e <= Z.min 3 (hdist r s).
Proof.
  intros key w r s cw e Lk Bk Hr Hw Es G. pose proof (scr_dist 0 key r w Bk) as D. cbn [skipn] in D. rewrite Lk in D. specialize (D Hr (proj1 Hw)). rewrite <- Es in D. rewrite <- D.
  apply near_golay; [exact Hw|rewrite scramble_length; destruct Hr; lia|exact G].
Qed.
Lemma near_ham_row : forall (word : list Z -> Prop) key w r s cw e, (forall l, word l -> is_bits 15 l) ->
  length key = 15%nat -> Forall is_bit key -> (15 <= length r)%nat -> (15 <= length w)%nat -> is_bits 15 (firstn 15 r) -> word (firstn 15 w) -> s = scramble key w ->
  hamming_fix word (firstn 15 (scramble key r)) cw e -> (hdist (firstn 15 r) (firstn 15 s) <= 1 <-> cw = firstn 15 w) /\ 0 <= e <= Z.min 1 (hdist (firstn 15 r) (firstn 15 s)).
Proof.
  intros word key w r s cw e Hwb Lk Bk Lr Lw Br Hw Es (C & _ & D & U & E & B). pose proof (scr_dist 0 key (firstn 15 r) (firstn 15 w) Bk) as Q. cbn [skipn] in Q. rewrite Lk in Q. specialize (Q Br (Hwb _ Hw)).
  rewrite <- !(scramble_firstn key 15) in Q by lia. rewrite <- Es in Q. rewrite <- Q. assert (G : hdist (firstn 15 (scramble key r)) (firstn 15 w) <= 1 -> cw = firstn 15 w) by (intros H; symmetry; now apply U).
  split; [split; [exact G|intros <-; exact D]|]. destruct (Z.le_gt_cases (hdist (firstn 15 (scramble key r)) (firstn 15 w)) 1) as [H|H]; [|lia]. rewrite (G H) in E. lia.
Qed.
Lemma golay_part : forall l cw e, golay_fix l cw e -> length (rev (skipn 11 cw)) = 12%nat.
Proof. intros l cw e (((L & _) & _) & _). rewrite rev_length, skipn_length. lia. Qed.
Lemma ham_part : forall w l cw e, hamming_fix w l cw e -> length (rev (skipn 4 cw)) = 11%nat.
Proof. intros w l cw e (_ & (L & _) & _). rewrite rev_length, skipn_length. lia. Qed.
Lemma local7200 : forall d sent got d0, length d = 88%nat -> imbe7200_encoded d sent -> imbe7200_frame sent -> imbe7200_frame got -> length d0 = 88%nat ->
  reachable sent got (mkblock 0 0 23 3 0 12) ->
  exists fr' errs errs2 c4 d', imbe7200_frame_ecc got d0 = Ok (fr', errs, errs2, c4, d') /\ saved sent got d d' blocks_7200 /\
    0 <= errs <= flips sent got (mkblock 0 0 23 3 0 12) /\ errs <= errs2 <= countable sent got blocks_7200 /\ 0 <= c4 <= Z.min 1 (flips sent got (mkblock 4 0 15 1 48 11)).
Proof.
  intros d sent got d0 Ld (w & (w0 & w1 & w2 & w3 & w4 & w5 & w6 & w7 & -> & W0 & V0 & W1 & V1 & W2 & V2 & W3 & V3 & W4 & V4 & W5 & V5 & W6 & V6 & V7) & Es) HS HG L0 C0.
  cbn [imbe7200_scramble] in Es. cbv zeta in Es. fold (key7200 w0) in Es.
  destruct HS as (s0 & s1 & s2 & s3 & s4 & s5 & s6 & s7 & -> & T0 & T1 & T2 & T3 & T4 & T5 & T6 & T7).
  injection Es as E0 E1 E2 E3 E4 E5 E6 E7. subst s0 s7.
  pose proof HG as HG'. destruct HG' as (r0 & r1 & r2 & r3 & r4 & r5 & r6 & r7 & -> & R0 & R1 & R2 & R3 & R4 & R5 & R6 & R7).
  destruct (imbe7200_frame_full r0 r1 r2 r3 r4 r5 r6 r7 d0 HG L0)
    as (fr' & c0 & e0 & c1 & e1 & c2 & e2 & c3 & e3 & h4 & f4 & h5 & f5 & h6 & f6 & E & G0 & G1 & G2 & G3 & F4 & F5 & F6).
  apply row_full in R0, R1, R2, R3, T0, T1, T2, T3.
  assert (S23 : forall a : list Z, is_bits 23 a -> slice 0 23 a = a) by (intros a [H _]; now apply slice_whole).
  unfold reachable, flips in C0. cbn [b_off b_len b_row b_cap nth] in C0. rewrite !S23 in C0 by assumption.
  destruct (near_golay r0 w0 c0 e0 W0 (is_bits_len _ _ R0) G0) as [K0 B0]. pose proof (proj1 K0 C0) as Ec0. subst c0.
  set (key := key7200 w0) in *. assert (Lk : length key = 114%nat) by apply keybits_length. assert (Bk : Forall is_bit key) by apply keybits_bits. clearbody key.
  assert (Hlen : forall (word : list Z -> Prop) l, (forall l, word l -> is_bits 15 l) -> word (firstn 15 l) -> (15 <= length l)%nat).
  { intros word l H1 H2. apply H1 in H2. destruct H2 as [H2 _]. rewrite firstn_length in H2. lia. }
  assert (Hb15 : forall r, row 23 15 r -> is_bits 15 (firstn 15 r)).
  { intros r R. rewrite <- slice_0. apply (slice_is_bits 23 15); [exact R|lia|lia]. }
  destruct (near_golay_row (slice 0 23 key) w1 r1 s1 c1 e1) as [K1 B1]; try assumption; [apply slice_length; lia|now apply slice_Forall|].
  destruct (near_golay_row (slice 23 23 key) w2 r2 s2 c2 e2) as [K2 B2]; try assumption; [apply slice_length; lia|now apply slice_Forall|].
  destruct (near_golay_row (slice 46 23 key) w3 r3 s3 c3 e3) as [K3 B3]; try assumption; [apply slice_length; lia|now apply slice_Forall|].
  destruct (near_ham_row hamming_word (slice 69 15 key) w4 r4 s4 h4 f4) as [K4 B4]; try assumption;
    [apply hamming_word_bits|apply slice_length; lia|now apply slice_Forall|destruct R4; lia|apply (Hlen hamming_word); [apply hamming_word_bits|exact W4]|now apply Hb15|].
  destruct (near_ham_row hamming_word (slice 84 15 key) w5 r5 s5 h5 f5) as [K5 B5]; try assumption;
    [apply hamming_word_bits|apply slice_length; lia|now apply slice_Forall|destruct R5; lia|apply (Hlen hamming_word); [apply hamming_word_bits|exact W5]|now apply Hb15|].
  destruct (near_ham_row hamming_word (slice 99 15 key) w6 r6 s6 h6 f6) as [K6 B6]; try assumption;
    [apply hamming_word_bits|apply slice_length; lia|now apply slice_Forall|destruct R6; lia|apply (Hlen hamming_word); [apply hamming_word_bits|exact W6]|now apply Hb15|].
  eexists fr', e0, _, f4, _. split; [exact E|].
  pose proof (golay_part _ _ _ G0) as P0. pose proof (golay_part _ _ _ G1) as P1. pose proof (golay_part _ _ _ G2) as P2. pose proof (golay_part _ _ _ G3) as P3.
  pose proof (ham_part _ _ _ _ F4) as P4. pose proof (ham_part _ _ _ _ F5) as P5. pose proof (ham_part _ _ _ _ F6) as P6.
  assert (P7 : length (rev (firstn 7 r7)) = 7%nat) by (rewrite rev_length, firstn_length; destruct R7; lia).
  assert (S15 : forall l : list Z, skipn 4 (firstn 15 l) = slice 4 11 l) by exact (skipn_slice 4 11).
  split; [|split; [|split]].
  - unfold saved, blocks_7200, reachable, part, flips. repeat (apply Forall_cons || apply Forall_nil); cbn [b_off b_len b_row b_cap b_pos b_bits nth]; rewrite ?S23 by assumption; rewrite ?(slice_0 _ r4), ?(slice_0 _ s4), ?(slice_0 _ r5), ?(slice_0 _ s5), ?(slice_0 _ r6), ?(slice_0 _ s6), ?(slice_0 _ r7), ?(slice_0 _ w7).
    + rewrite slice_head by exact P0. split; [intros _; exact V0|intros _; exact C0].
    + rewrite (slice_over _ _ _ 12 0 12) by exact P0. rewrite slice_head by exact P1. rewrite <- V1. apply data_iff; [apply G1|exact W1|exact K1].
    + rewrite (slice_over _ _ _ 12 12 12), (slice_over _ _ _ 12 0 12) by assumption. rewrite slice_head by exact P2. rewrite <- V2. apply data_iff; [apply G2|exact W2|exact K2].
    + rewrite (slice_over _ _ _ 12 24 12), (slice_over _ _ _ 12 12 12), (slice_over _ _ _ 12 0 12) by assumption. rewrite slice_head by exact P3. rewrite <- V3. apply data_iff; [apply G3|exact W3|exact K3].
    + rewrite (slice_over _ _ _ 12 36 11), (slice_over _ _ _ 12 24 11), (slice_over _ _ _ 12 12 11), (slice_over _ _ _ 12 0 11) by assumption. rewrite slice_head by exact P4. rewrite <- V4, <- S15. apply (ham_iff hamming_word); [exact hamming_inj|apply F4|exact W4|exact K4].
    + rewrite (slice_over _ _ _ 12 47 11), (slice_over _ _ _ 12 35 11), (slice_over _ _ _ 12 23 11), (slice_over _ _ _ 12 11 11), (slice_over _ _ _ 11 0 11) by assumption.
      rewrite slice_head by exact P5. rewrite <- V5, <- S15. apply (ham_iff hamming_word); [exact hamming_inj|apply F5|exact W5|exact K5].
    + rewrite (slice_over _ _ _ 12 58 11), (slice_over _ _ _ 12 46 11), (slice_over _ _ _ 12 34 11), (slice_over _ _ _ 12 22 11), (slice_over _ _ _ 11 11 11), (slice_over _ _ _ 11 0 11) by assumption.
      rewrite slice_head by exact P6. rewrite <- V6, <- S15. apply (ham_iff hamming_word); [exact hamming_inj|apply F6|exact W6|exact K6].
    + rewrite (slice_over _ _ _ 12 69 7), (slice_over _ _ _ 12 57 7), (slice_over _ _ _ 12 45 7), (slice_over _ _ _ 12 33 7), (slice_over _ _ _ 11 22 7), (slice_over _ _ _ 11 11 7), (slice_over _ _ _ 11 0 7) by assumption.
      rewrite slice_whole by exact P7. rewrite <- V7. apply plain_iff. rewrite !firstn_length. destruct R7, T7; lia.
  - unfold flips. cbn [b_off b_len b_row b_cap nth]. rewrite !S23 by assumption. lia.
  - unfold countable, blocks_7200, flips. cbn [b_off b_len b_row b_cap nth fold_right]. rewrite !S23 by assumption. rewrite !slice_0. pose proof (hdist_nonneg (firstn 7 r7) (firstn 7 w7)). lia.
  - unfold flips. cbn [b_off b_len b_row nth]. rewrite !slice_0. lia.
Qed.

Lemma near_golay_row1 : forall key w r s cw e, length key = 24%nat -> Forall is_bit key ->
  row 24 24 r -> is_bits 24 w -> golay_word (slice 1 23 w) -> s = scramble key w -> golay_fix (slice 1 23 (scramble key r)) cw e ->
  (hdist (slice 1 23 r) (slice 1 23 s) <= 3 <-> cw = slice 1 23 w) /\ 0 <= e <= Z.min 3 (hdist (slice 1 23 r) (slice 1 23 s)).
Proof.
  intros key w r s cw e Lk Bk R Bw Hw Es G. apply row_full in R. pose proof (scr_dist 1 key r w Bk) as D. rewrite Lk in D. specialize (D R Bw). rewrite <- Es in D.
  assert (Lr : length r = 24%nat) by apply R. assert (Lw : length w = 24%nat) by apply Bw. assert (Ls : length s = 24%nat) by (rewrite Es, scramble_length; lia).
  assert (Lx : length (scramble key r) = 24%nat) by (rewrite scramble_length; lia).
  rewrite <- !(slice_all 1 23) in D by lia. rewrite <- D. apply near_golay; [exact Hw|apply slice_length; lia|exact G].
Qed.
Lemma near_golay_row23 : forall key w r s cw e, length key = 23%nat -> Forall is_bit key ->
  row 24 23 r -> golay_word (firstn 23 w) -> s = scramble key w -> golay_fix (firstn 23 (scramble key r)) cw e ->
  (hdist (firstn 23 r) (firstn 23 s) <= 3 <-> cw = firstn 23 w) /\ 0 <= e <= Z.min 3 (hdist (firstn 23 r) (firstn 23 s)).
Proof.
  intros key w r s cw e Lk Bk R Hw Es G. destruct R as [Lr Br]. assert (Lw : (23 <= length w)%nat) by (destruct Hw as [[L _] _]; rewrite firstn_length in L; lia).
  apply (near_golay_row key); auto; [split; [rewrite firstn_length; lia|exact Br]|rewrite Es; apply scramble_firstn; lia|]. rewrite <- (scramble_firstn key 23) by lia. exact G.
Qed.
Lemma local7100 : forall d sent got d0, length d = 88%nat -> imbe7100_encoded d sent -> imbe7100_frame sent -> imbe7100_frame got -> length d0 = 88%nat ->
  reachable sent got (mkblock 0 1 18 3 0 7) ->
  exists fr' errs errs2 c4 d', imbe7100_frame_ecc got d0 = Ok (fr', errs, errs2, c4, reorder7200 (Z.to_nat (imbe_bands (pitch7100 d'))) d') /\ saved sent got d d' blocks_7100 /\
    0 <= errs <= flips sent got (mkblock 0 1 18 3 0 7) /\ errs <= errs2 <= countable sent got blocks_7100 /\ 0 <= c4 <= Z.min 1 (flips sent got (mkblock 4 0 15 1 43 11)).
Proof.
  intros d sent got d0 Ld (w & (w0 & w1 & w2 & w3 & w4 & w5 & w6 & -> & W0 & V0 & W1 & V1 & W2 & V2 & W3 & V3 & W4 & V4 & W5 & V5 & V6) & Es) HS HG L0 C0.
  cbn [imbe7100_scramble] in Es. cbv zeta in Es.
  destruct HS as (s0 & s1 & s2 & s3 & s4 & s5 & s6 & -> & T0 & T1 & T2 & T3 & T4 & T5 & T6).
  injection Es as E0 E1 E2 E3 E4 E5 E6. subst s0 s6.
  pose proof HG as HG'. destruct HG' as (r0 & r1 & r2 & r3 & r4 & r5 & r6 & -> & R0 & R1 & R2 & R3 & R4 & R5 & R6).
  destruct (imbe7100_frame_full r0 r1 r2 r3 r4 r5 r6 d0 HG L0)
    as (fr' & c0 & e0 & c1 & e1 & c2 & e2 & c3 & e3 & h4 & f4 & h5 & f5 & d7 & Ed7 & _ & E & G0 & G1 & G2 & G3 & F4 & F5).
  unfold reachable, flips in C0. cbn [b_off b_len b_row b_cap nth] in C0.
  assert (Lr0 : length (slice 1 18 r0) = 18%nat) by (apply slice_length; destruct R0; lia).
  assert (Lw0 : length (slice 1 18 w0) = 18%nat) by (apply slice_length; destruct T0; lia).
  assert (D0 : hdist (slice 1 18 r0 ++ repeat 0 5) (slice 1 18 w0 ++ repeat 0 5) = hdist (slice 1 18 r0) (slice 1 18 w0)) by (rewrite hdist_app, hdist_refl by lia; lia).
  assert (L23 : length (slice 1 18 r0 ++ repeat 0 5) = 23%nat) by (rewrite app_length, Lr0; reflexivity).
  destruct (near_golay _ _ _ _ W0 L23 G0) as [K0 B0]. rewrite D0 in K0, B0. pose proof (proj1 K0 C0) as Ec0.
  assert (Es0 : forall x, (19 <= length x)%nat -> slice 11 7 (slice 1 18 x ++ repeat 0 5) = slice 12 7 x).
  { intros x Lx. change (slice 1 18 x) with (firstn 18 (skipn 1 x)). unfold slice. rewrite skipn_app.
    rewrite firstn_length, skipn_length. replace (11 - min 18 (length x - 1))%nat with 0%nat by lia.
    rewrite skipn_firstn_comm, skipn_skipn'. change (18 - 11)%nat with 7%nat. change (1 + 11)%nat with 12%nat.
    rewrite (firstn_app_len 7) by (rewrite firstn_length, skipn_length; lia). reflexivity. }
  assert (Ek : key7100 c0 = keybits (val (slice 12 7 w0)) 100).
  { unfold key7100. rewrite Ec0, Es0 by (destruct T0; lia). reflexivity. }
  rewrite Ek in *. clear Ek.
  set (key := keybits (val (slice 12 7 w0)) 100) in *.
  assert (Lk : length key = 100%nat) by apply keybits_length. assert (Bk : Forall is_bit key) by apply keybits_bits. clearbody key.
  assert (Hlen : forall (word : list Z -> Prop) l, (forall l, word l -> is_bits 15 l) -> word (firstn 15 l) -> (15 <= length l)%nat).
  { intros word l H1 H2. apply H1 in H2. destruct H2 as [H2 _]. rewrite firstn_length in H2. lia. }
  assert (Hb15 : forall r, row 24 15 r -> is_bits 15 (firstn 15 r)).
  { intros r R. rewrite <- slice_0. apply (slice_is_bits 24 15); [exact R|lia|lia]. }
  assert (Lw1 : length w1 = 24%nat).
  { destruct T1 as [T1 _]. rewrite E1 in T1. destruct (Nat.le_gt_cases 24 (length w1)) as [H|H].
    - rewrite scramble_length in T1 by (rewrite slice_length; lia). exact T1.
    - exfalso. unfold scramble in T1. assert (W23 : (23 <= length (skipn 1 w1))%nat).
      { destruct W1 as [[W1 _] _]. unfold slice in W1. rewrite firstn_length in W1. lia. }
      rewrite skipn_length in W23. lia. }
  assert (Bw1 : is_bits 24 w1).
  { split; [exact Lw1|]. pose proof (proj1 (row_full _ _) T1) as [L1 BT1]. rewrite <- (scramble_involutive (slice 0 24 key) w1) by (rewrite slice_length; lia). rewrite <- E1. unfold scramble.
    rewrite firstn_all2, skipn_all2, app_nil_r by (rewrite slice_length; lia). apply xor_bits_bits; [exact BT1|apply Forall_rev; now apply slice_Forall]. }
  destruct (near_golay_row1 (slice 0 24 key) w1 r1 s1 c1 e1) as [K1 B1]; try assumption; [apply slice_length; lia|now apply slice_Forall|].
  destruct (near_golay_row23 (slice 24 23 key) w2 r2 s2 c2 e2) as [K2 B2]; try assumption; [apply slice_length; lia|now apply slice_Forall|].
  destruct (near_golay_row23 (slice 47 23 key) w3 r3 s3 c3 e3) as [K3 B3]; try assumption; [apply slice_length; lia|now apply slice_Forall|].
  destruct (near_ham_row hamming7100_word (slice 70 15 key) w4 r4 s4 h4 f4) as [K4 B4]; try assumption;
    [apply hamming7100_word_bits|apply slice_length; lia|now apply slice_Forall|destruct R4; lia|apply (Hlen hamming7100_word); [apply hamming7100_word_bits|exact W4]|now apply Hb15|].
  destruct (near_ham_row hamming7100_word (slice 85 15 key) w5 r5 s5 h5 f5) as [K5 B5]; try assumption;
    [apply hamming7100_word_bits|apply slice_length; lia|now apply slice_Forall|destruct R5; lia|apply (Hlen hamming7100_word); [apply hamming7100_word_bits|exact W5]|now apply Hb15|].
  eexists fr', e0, _, f4, d7. split; [exact E|].
  assert (P0 : length (rev (slice 11 7 c0)) = 7%nat) by (rewrite rev_length, Ec0; apply slice_length; rewrite app_length, Lw0; cbn; lia).
  pose proof (golay_part _ _ _ G1) as P1. pose proof (golay_part _ _ _ G2) as P2. pose proof (golay_part _ _ _ G3) as P3.
  pose proof (ham_part _ _ _ _ F4) as P4. pose proof (ham_part _ _ _ _ F5) as P5.
  assert (P6 : length (rev (firstn 23 r6)) = 23%nat) by (rewrite rev_length, firstn_length; destruct R6; lia).
  assert (S15 : forall l : list Z, skipn 4 (firstn 15 l) = slice 4 11 l) by exact (skipn_slice 4 11).
  assert (S23 : forall l : list Z, skipn 11 (firstn 23 l) = slice 11 12 l) by exact (skipn_slice 11 12).
  assert (S24 : forall l : list Z, skipn 11 (slice 1 23 l) = slice 12 12 l) by (intros l; unfold slice; rewrite skipn_firstn_comm, skipn_skipn'; reflexivity).
  split; [|split; [|split]].
  - rewrite Ed7. unfold saved, blocks_7100, reachable, part, flips. repeat (apply Forall_cons || apply Forall_nil); cbn [b_off b_len b_row b_cap b_pos b_bits nth]; rewrite ?(slice_0 _ r2), ?(slice_0 _ s2), ?(slice_0 _ r3), ?(slice_0 _ s3), ?(slice_0 _ r4), ?(slice_0 _ s4), ?(slice_0 _ r5), ?(slice_0 _ s5), ?(slice_0 _ r6), ?(slice_0 _ w6).
    + rewrite slice_head by exact P0. rewrite Ec0, Es0 by (destruct T0; lia). split; [intros _; exact V0|intros _; exact C0].
    + rewrite (slice_over _ _ _ 7 0 12) by exact P0. rewrite slice_head by exact P1. rewrite <- V1, <- S24. apply data_iff; [apply G1|exact W1|exact K1].
    + rewrite (slice_over _ _ _ 7 12 12), (slice_over _ _ _ 12 0 12) by assumption. rewrite slice_head by exact P2. rewrite <- V2, <- S23. apply data_iff; [apply G2|exact W2|exact K2].
    + rewrite (slice_over _ _ _ 7 24 12), (slice_over _ _ _ 12 12 12), (slice_over _ _ _ 12 0 12) by assumption. rewrite slice_head by exact P3. rewrite <- V3, <- S23. apply data_iff; [apply G3|exact W3|exact K3].
    + rewrite (slice_over _ _ _ 7 36 11), (slice_over _ _ _ 12 24 11), (slice_over _ _ _ 12 12 11), (slice_over _ _ _ 12 0 11) by assumption. rewrite slice_head by exact P4. rewrite <- V4, <- S15. apply (ham_iff hamming7100_word); [exact hamming7100_inj|apply F4|exact W4|exact K4].
    + rewrite (slice_over _ _ _ 7 47 11), (slice_over _ _ _ 12 35 11), (slice_over _ _ _ 12 23 11), (slice_over _ _ _ 12 11 11), (slice_over _ _ _ 11 0 11) by assumption.
      rewrite slice_head by exact P5. rewrite <- V5, <- S15. apply (ham_iff hamming7100_word); [exact hamming7100_inj|apply F5|exact W5|exact K5].
    + rewrite (slice_over _ _ _ 7 58 23), (slice_over _ _ _ 12 46 23), (slice_over _ _ _ 12 34 23), (slice_over _ _ _ 12 22 23), (slice_over _ _ _ 11 11 23), (slice_over _ _ _ 11 0 23) by assumption.
      rewrite slice_whole by exact P6. rewrite <- V6. apply plain_iff. rewrite !firstn_length. destruct R6, T6; lia.
  - unfold flips. cbn [b_off b_len b_row b_cap nth]. lia.
  - unfold countable, blocks_7100, flips. cbn [b_off b_len b_row b_cap nth fold_right]. rewrite !slice_0. pose proof (hdist_nonneg (firstn 23 r6) (firstn 23 w6)). lia.
  - unfold flips. cbn [b_off b_len b_row nth]. rewrite !slice_0. lia.
Qed.

Lemma even_stays : forall r0 r1 r2 r3 r0' errs, row 24 24 r0 -> golay_word (skipn 1 r0) -> Z.odd (fold_right Z.add 0 r0) = false ->
  mbe_eccAmbe3600C0_common [r0; r1; r2; r3] = Ok ([r0'; r1; r2; r3], errs) -> errs = 0.
Proof.
  intros r0 r1 r2 r3 r0' errs R W O E.
  destruct (ambe_c0_full r0 r1 r2 r3 R) as (q & n & cw & E1 & Rq & Hc & Hd & Hu & Hs & Hm & He & _). rewrite E in E1. injection E1 as <- <-.
  destruct (ambe_c0_extra_bit r0 r1 r2 r3 R) as (q & n & cw' & E2 & Hc' & Hd' & Hx). rewrite E in E2. injection E2 as <- <-.
  assert (ZR : hdist (skipn 1 r0) (skipn 1 r0) <= 3) by (rewrite hdist_refl; lia).
  assert (C : cw = skipn 1 r0) by (symmetry; now apply Hu). subst cw. rewrite skipn_skipn' in Hs. change (1 + 11)%nat with 12%nat in Hs.
  assert (X : nth 0 r0' 0 = nth 0 r0 0). { destruct (Z.eq_dec (nth 0 r0' 0) (nth 0 r0 0)) as [H|H]; [exact H|]. apply Hx in H. destruct H as [_ H]. congruence. }
  assert (r0' = r0) as Q; [|rewrite He, Q; apply hdist_refl].
  destruct R as [L _]. destruct Rq as [L' _]. rewrite <- (firstn_skipn 12 r0), <- (firstn_skipn 12 r0'), Hs. f_equal. clear - X Hm L L'.
  destruct r0 as [|x r0]; [discriminate L|]. destruct r0' as [|x' r0']; [discriminate L'|]. cbn [nth] in X. subst x'.
  change (firstn 12 (x :: r0')) with (x :: firstn 11 r0'). change (firstn 12 (x :: r0)) with (x :: firstn 11 r0). f_equal. exact Hm.
Qed.
Lemma local_ambe : forall d sent got d0, length d = 49%nat -> ambe_encoded d sent -> ambe_frame sent -> ambe_frame got -> length d0 = 49%nat ->
  reachable sent got (mkblock 0 1 23 3 0 12) ->
  exists fr' errs errs2 d', ambe_frame_ecc got d0 = Ok (fr', errs, errs2, d') /\ saved sent got d d' blocks_ambe /\
    0 <= errs <= 3 /\ (even_row sent -> errs <= row0_flips sent got) /\ errs <= errs2 <= errs + Z.min 3 (flips sent got (mkblock 1 0 23 3 12 12)).
Proof.
  intros d sent got d0 Ld (s0 & s1 & s2 & s3 & c1 & -> & Hg0 & Hd0 & Hg1 & Hd1 & Hs1 & Hs2 & Hs3) HS HF L0 C0.
  destruct (ambe_frame_full _ d0 HF L0) as (r0 & r1 & r2 & r3 & fr' & errs & errs2 & d' & cw0 & c1' & cw1 & Eq & E & Hw0 & Hn0 & Hu0 &
    Ec1 & Hw1 & Hn1 & Hu1 & Ed & He & Hea & Heb & He2 & Her). subst got.
  destruct HF as (? & ? & ? & ? & Eq & R0 & R1 & R2 & R3). injection Eq as <- <- <- <-.
  destruct HS as (? & ? & ? & ? & Eq & T0 & T1 & T2 & T3). injection Eq as <- <- <- <-.
  unfold reachable, flips in C0. cbn [b_off b_len b_row b_cap nth] in C0.
  assert (LR : length r0 = 24%nat) by apply R0. assert (LT : length s0 = 24%nat) by apply T0.
  rewrite !(slice_all 1 23) in C0 by lia.
  assert (Ew0 : skipn 1 s0 = cw0) by (apply Hu0; assumption). subst cw0.
  assert (Es12 : skipn 11 (skipn 1 s0) = skipn 12 s0) by apply skipn_skipn'. rewrite Es12 in *. set (key := keybits (val (skipn 12 s0)) 23) in *.
  assert (Lk : length key = 23%nat) by apply keybits_length. assert (Bk : Forall is_bit key) by apply keybits_bits.
  assert (B1 : is_bits 23 (firstn 23 r1)). { split; [rewrite firstn_length; destruct R1; lia|apply R1]. }
  assert (G1 : golay_fix (scramble key (firstn 23 r1)) cw1 (errs2 - errs)). { rewrite <- Ec1. split; [exact Hw1|]. split; [exact Hn1|]. split; [exact Hu1|]. split; [lia|exact Her]. }
  destruct (near_golay_row key c1 (firstn 23 r1) (firstn 23 s1) cw1 (errs2 - errs) Lk Bk B1 Hg1 Hs1 G1) as [K1 N1].
  pose proof (golay_part _ _ _ G1) as P1. assert (P0 : length (rev (skipn 12 s0)) = 12%nat) by (rewrite rev_length, skipn_length; lia).
  assert (P2 : length (rev (firstn 11 r2)) = 11%nat) by (rewrite rev_length, firstn_length; destruct R2; lia).
  assert (P3 : length (rev (firstn 14 r3)) = 14%nat) by (rewrite rev_length, firstn_length; destruct R3; lia).
  exists fr', errs, errs2, d'. split; [exact E|]. split; [|split; [exact He|split]].
  - rewrite Ed. unfold saved, blocks_ambe, reachable, part, flips. repeat (apply Forall_cons || apply Forall_nil); cbn [b_off b_len b_row b_cap b_pos b_bits nth];
      rewrite ?(slice_0 _ r1), ?(slice_0 _ s1), ?(slice_0 _ r2), ?(slice_0 _ s2), ?(slice_0 _ r3), ?(slice_0 _ s3).
    + rewrite slice_head by exact P0. rewrite !(slice_all 1 23) by lia. split; [intros _; exact Hd0|intros _; exact C0].
    + rewrite (slice_over _ _ _ 12 0 12) by exact P0. rewrite slice_head by exact P1. rewrite <- Hd1. apply data_iff; [exact Hw1|exact Hg1|exact K1].
    + rewrite (slice_over _ _ _ 12 12 11), (slice_over _ _ _ 12 0 11) by assumption. rewrite slice_head by exact P2. rewrite <- Hs2. apply plain_iff. rewrite !firstn_length. destruct R2, T2; lia.
    + rewrite (slice_over _ _ _ 12 23 14), (slice_over _ _ _ 12 11 14), (slice_over _ _ _ 11 0 14) by assumption. rewrite slice_whole by exact P3. rewrite <- Hs3. apply plain_iff. rewrite !firstn_length. destruct R3, T3; lia.
  - intros O. unfold even_row, row0_flips in *. cbn [nth] in *. pose proof (hdist_nonneg r0 s0) as N0. pose proof (hdist_skipn_le 12 r0 s0 ltac:(lia)) as N2.
    pose proof (hdist_nonneg (skipn 12 r0) (skipn 12 s0)) as N3.
    destruct (Z.eq_dec (hdist (skipn 12 r0) (skipn 12 s0)) 0) as [Q|Q]; [|rewrite Hea by lia; exact N2].
    destruct (Z.eq_dec (hdist r0 s0) 0) as [Q0|Q0]; [|specialize (Heb Q); lia].
    apply hdist_0_eq in Q0; [|lia]. subst s0. unfold ambe_frame_ecc in E. destruct (ambe_c0_full r0 r1 r2 r3 R0) as (q & n & cw & E1 & _). rewrite E1 in E. cbn [bind] in E.
    pose proof (even_stays r0 r1 r2 r3 q n R0 Hg0 O E1) as Z0. rewrite hdist_refl.
    destruct (mbe_demodulateAmbe3600Data_common _) as [fr1|]; [|discriminate E]. cbn [bind] in E. destruct (mbe_eccAmbe3600Data_common _ _) as [[? ?]|]; [|discriminate E]. cbn [bind] in E. injection E as _ E _ _. lia.
  - unfold flips. cbn [b_off b_len b_row nth]. rewrite !slice_0. lia.
Qed.

(* the first word, whatever the others *)
Lemma first7200 : forall d sent got d0, length d = 88%nat -> imbe7200_encoded d sent -> imbe7200_frame sent -> imbe7200_frame got -> length d0 = 88%nat ->
  exists fr' errs errs2 c4 d', imbe7200_frame_ecc got d0 = Ok (fr', errs, errs2, c4, d') /\ length d' = 88%nat /\
    (reachable sent got (mkblock 0 0 23 3 0 12) <-> part d' (mkblock 0 0 23 3 0 12) = part d (mkblock 0 0 23 3 0 12)).
Proof.
  intros d sent got d0 Ld (w & (w0 & w1 & w2 & w3 & w4 & w5 & w6 & w7 & -> & W0 & V0 & _) & Es) HS HG L0.
  cbn [imbe7200_scramble] in Es. cbv zeta in Es.
  destruct HS as (s0 & s1 & s2 & s3 & s4 & s5 & s6 & s7 & -> & T0 & _).
  injection Es as E0 E1 E2 E3 E4 E5 E6 E7. subst s0.
  pose proof HG as HG'. destruct HG' as (r0 & r1 & r2 & r3 & r4 & r5 & r6 & r7 & -> & R0 & R1 & R2 & R3 & R4 & R5 & R6 & R7).
  destruct (imbe7200_frame_full r0 r1 r2 r3 r4 r5 r6 r7 d0 HG L0)
    as (fr' & c0 & e0 & c1 & e1 & c2 & e2 & c3 & e3 & h4 & f4 & h5 & f5 & h6 & f6 & E & G0 & G1 & G2 & G3 & F4 & F5 & F6).
  pose proof (golay_part _ _ _ G0) as P0. pose proof (golay_part _ _ _ G1) as P1. pose proof (golay_part _ _ _ G2) as P2. pose proof (golay_part _ _ _ G3) as P3.
  pose proof (ham_part _ _ _ _ F4) as P4. pose proof (ham_part _ _ _ _ F5) as P5. pose proof (ham_part _ _ _ _ F6) as P6.
  assert (P7 : length (rev (firstn 7 r7)) = 7%nat) by (rewrite rev_length, firstn_length; destruct R7; lia).
  eexists fr', e0, _, f4, _. split; [exact E|]. split; [rewrite !app_length; lia|]. apply row_full in R0, T0.
  unfold reachable, flips, part. cbn [b_off b_len b_row b_cap b_pos b_bits nth]. rewrite !(slice_whole _ _ 23) by (apply R0 || apply T0).
  rewrite slice_head by exact P0. rewrite <- V0. apply data_iff; [apply G0|exact W0|apply (near_golay r0 w0 c0 e0 W0 (is_bits_len _ _ R0) G0)].
Qed.
Lemma first_ambe : forall d sent got d0, length d = 49%nat -> ambe_encoded d sent -> ambe_frame sent -> ambe_frame got -> length d0 = 49%nat ->
  exists fr' errs errs2 d', ambe_frame_ecc got d0 = Ok (fr', errs, errs2, d') /\ length d' = 49%nat /\
    (reachable sent got (mkblock 0 1 23 3 0 12) <-> part d' (mkblock 0 1 23 3 0 12) = part d (mkblock 0 1 23 3 0 12)).
Proof.
  intros d sent got d0 Ld (s0 & s1 & s2 & s3 & c1 & -> & Hg0 & Hd0 & Hg1 & Hd1 & Hs1 & Hs2 & Hs3) HS HF L0.
  destruct (ambe_frame_full _ d0 HF L0) as (r0 & r1 & r2 & r3 & fr' & errs & errs2 & d' & cw0 & c1' & cw1 & Eq & E & Hw0 & Hn0 & Hu0 &
    Ec1 & Hw1 & Hn1 & Hu1 & Ed & He & Hea & Heb & He2 & Her). subst got.
  destruct HF as (? & ? & ? & ? & Eq & R0 & R1 & R2 & R3). injection Eq as <- <- <- <-.
  destruct HS as (? & ? & ? & ? & Eq & T0 & T1 & T2 & T3). injection Eq as <- <- <- <-.
  assert (LR : length r0 = 24%nat) by apply R0. assert (LT : length s0 = 24%nat) by apply T0.
  assert (Es12 : skipn 11 (skipn 1 s0) = skipn 12 s0) by apply skipn_skipn'.
  assert (P0 : length (rev (skipn 11 cw0)) = 12%nat) by (destruct Hw0 as [[L _] _]; rewrite rev_length, skipn_length; lia).
  assert (P1 : length (rev (skipn 11 cw1)) = 12%nat) by (destruct Hw1 as [[L _] _]; rewrite rev_length, skipn_length; lia).
  exists fr', errs, errs2, d'. split; [exact E|]. rewrite Ed. split.
  { rewrite !app_length, P0, P1, !rev_length, !firstn_length. destruct R2, R3. lia. }
  unfold reachable, flips, part. cbn [b_off b_len b_row b_cap b_pos b_bits nth]. rewrite !(slice_all 1 23) by lia. rewrite slice_head by exact P0. rewrite <- Hd0, <- Es12.
  apply data_iff; [exact Hw0|exact Hg0|]. split; [intros H; symmetry; apply Hu0; assumption|intros <-; exact Hn0].
Qed.
(* the parameter bits are the blocks' *)
Lemma parts_7200 : forall d d' : list Z, length d = 88%nat -> length d' = 88%nat -> (Forall (fun b => part d' b = part d b) blocks_7200 <-> d' = d).
Proof.
  intros d d' L L'. split; [|intros ->; apply Forall_forall; reflexivity]. intros F.
  assert (S : forall l : list Z, length l = 88%nat -> l = concat (map (part l) blocks_7200)).
  { intros l H. do 88 (destruct l as [|? l]; [discriminate H|]). destruct l; [reflexivity|discriminate H]. }
  rewrite (S d L), (S d' L'). f_equal. apply map_ext_in. intros b Hb. rewrite Forall_forall in F. now apply F.
Qed.
Lemma parts_ambe : forall d d' : list Z, length d = 49%nat -> length d' = 49%nat -> (Forall (fun b => part d' b = part d b) blocks_ambe <-> d' = d).
Proof.
  intros d d' L L'. split; [|intros ->; apply Forall_forall; reflexivity]. intros F.
  assert (S : forall l : list Z, length l = 49%nat -> l = concat (map (part l) blocks_ambe)).
  { intros l H. do 49 (destruct l as [|? l]; [discriminate H|]). destruct l; [reflexivity|discriminate H]. }
  rewrite (S d L), (S d' L'). f_equal. apply map_ext_in. intros b Hb. rewrite Forall_forall in F. now apply F.
Qed.
Lemma whole7200 : forall d sent got d0, length d = 88%nat -> imbe7200_encoded d sent -> imbe7200_frame sent -> imbe7200_frame got -> length d0 = 88%nat ->
  exists fr' errs errs2 c4 d', imbe7200_frame_ecc got d0 = Ok (fr', errs, errs2, c4, d') /\ (Forall (reachable sent got) blocks_7200 <-> d' = d).
Proof.
  intros d sent got d0 L H1 H2 H3 L0. destruct (first7200 d sent got d0 L H1 H2 H3 L0) as (fr' & errs & errs2 & c4 & d' & E & L' & Q).
  exists fr', errs, errs2, c4, d'. split; [exact E|]. rewrite <- (parts_7200 d d' L L').
  assert (G : reachable sent got (mkblock 0 0 23 3 0 12) -> saved sent got d d' blocks_7200).
  { intros C0. destruct (local7200 d sent got d0 L H1 H2 H3 L0 C0) as (? & ? & ? & ? & ? & E' & S & _). rewrite E in E'. now injection E' as <- <- <- <- <-. }
  split; intros F; pose proof (Forall_inv F) as F0; [specialize (G F0)|apply Q in F0; specialize (G F0)]; unfold saved in G; rewrite Forall_forall in *; intros b Hb; apply (G b Hb); now apply F.
Qed.
Lemma whole_ambe : forall d sent got d0, length d = 49%nat -> ambe_encoded d sent -> ambe_frame sent -> ambe_frame got -> length d0 = 49%nat ->
  exists fr' errs errs2 d', ambe_frame_ecc got d0 = Ok (fr', errs, errs2, d') /\ (Forall (reachable sent got) blocks_ambe <-> d' = d).
Proof.
  intros d sent got d0 L H1 H2 H3 L0. destruct (first_ambe d sent got d0 L H1 H2 H3 L0) as (fr' & errs & errs2 & d' & E & L' & Q).
  exists fr', errs, errs2, d'. split; [exact E|]. rewrite <- (parts_ambe d d' L L').
  assert (G : reachable sent got (mkblock 0 1 23 3 0 12) -> saved sent got d d' blocks_ambe).
  { intros C0. destruct (local_ambe d sent got d0 L H1 H2 H3 L0 C0) as (? & ? & ? & ? & E' & S & _). rewrite E in E'. now injection E' as <- <- <- <-. }
  split; intros F; pose proof (Forall_inv F) as F0; [specialize (G F0)|apply Q in F0; specialize (G F0)]; unfold saved in G; rewrite Forall_forall in *; intros b Hb; apply (G b Hb); now apply F.
Qed.

(* four errors in the first word of an all-zero vector *)
Definition zero_sent : list (list Z) := imbe7200_scramble (repeat (repeat 0 23) 8).
Definition first_hit : list (list Z) := map (fun i => if existsb (Nat.eqb i) [1; 5; 9; 20]%nat then 1 else 0) (seq 0 23) :: tl zero_sent.
Lemma zero_golay : golay_word (repeat 0 23).
Proof. split; [apply is_bits_check; reflexivity|]. exists 0. split; [lia|reflexivity]. Qed.
Lemma zero_hamming : hamming_word (repeat 0 15).
Proof. split; [apply is_bits_check; reflexivity|reflexivity]. Qed.
Lemma row_check : forall w n r, Nat.eqb (length r) w = true -> forallb (fun x => (x =? 0) || (x =? 1)) (firstn n r) = true -> row w n r.
Proof.
  intros w n r L B. split; [now apply Nat.eqb_eq|]. apply Forall_forall. intros x Hx. rewrite forallb_forall in B. specialize (B x Hx). apply orb_true_iff in B. destruct B as [B|B]; apply Z.eqb_eq in B; [left|right]; exact B.
Qed.
Lemma zero_encoded : imbe7200_encoded (repeat 0 88) zero_sent /\ imbe7200_frame zero_sent /\ imbe7200_frame first_hit.
Proof.
  split; [|split].
  - exists (repeat (repeat 0 23) 8). split; [|reflexivity]. do 8 exists (repeat 0 23). pose proof zero_golay. pose proof zero_hamming. repeat split; (assumption || reflexivity || apply zero_golay || apply zero_hamming).
  - unfold imbe7200_frame. do 8 eexists. split; [vm_compute; reflexivity|]. do 7 (split; [apply row_check; reflexivity|]). apply row_check; reflexivity.
  - unfold imbe7200_frame. do 8 eexists. split; [vm_compute; reflexivity|]. do 7 (split; [apply row_check; reflexivity|]). apply row_check; reflexivity.
Qed.
Lemma first_refuted : exists d sent got fr' errs errs2 c4 d', imbe7200_encoded d sent /\ imbe7200_frame sent /\ imbe7200_frame got /\ flips sent got (mkblock 0 0 23 3 0 12) = 4 /\
  (forall b, In b (tl blocks_7200) -> flips sent got b = 0) /\ imbe7200_frame_ecc got (repeat 0 88) = Ok (fr', errs, errs2, c4, d') /\ errs2 = 10 /\
  (forall b, In b (removelast blocks_7200) -> part d' b <> part d b).
Proof.
  destruct zero_encoded as (A & B & C). exists (repeat 0 88), zero_sent, first_hit.
  destruct (imbe7200_frame_ecc first_hit (repeat 0 88)) as [[[[[fr' errs] errs2] c4] d']|] eqn:E; [|vm_compute in E; discriminate E].
  exists fr', errs, errs2, c4, d'. split; [exact A|]. split; [exact B|]. split; [exact C|]. split; [vm_compute; reflexivity|]. split.
  - assert (K : forallb (fun b => flips zero_sent first_hit b =? 0) (tl blocks_7200) = true) by (vm_compute; reflexivity). intros b Hb. rewrite forallb_forall in K. apply Z.eqb_eq, K, Hb.
  - split; [reflexivity|]. vm_compute in E. injection E as <- <- <- <- <-. split; [reflexivity|]. intros b Hb. cbn [removelast blocks_7200 In] in Hb.
    repeat (destruct Hb as [<-|Hb]; [vm_compute; discriminate|]). destruct Hb.
Qed.
(* twelve errors in the second word *)
Definition second_hit : list (list Z) := match zero_sent with r0 :: r1 :: t => r0 :: map (fun i => if Nat.ltb i 12 then 1 - nth i r1 0 else nth i r1 0) (seq 0 23) :: t | _ => [] end.
Lemma second_case : imbe7200_frame second_hit /\ flips zero_sent second_hit (mkblock 1 0 23 3 12 12) = 12 /\ forallb (fun b => flips zero_sent second_hit b =? 0) (mkblock 0 0 23 3 0 12 :: skipn 2 blocks_7200) = true.
Proof. split; [|split; vm_compute; reflexivity]. unfold imbe7200_frame. do 8 eexists. split; [vm_compute; reflexivity|]. do 7 (split; [apply row_check; reflexivity|]). apply row_check; reflexivity. Qed.
