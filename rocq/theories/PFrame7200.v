(* IMBE 7200x4400 frames: the property-level lemmas. *)
From Coq Require Import ZArith List Bool Lia.
From Verif Require Import Res MEcc MFrame SpecEcc SpecFrame PBase PEcc PHam PLoop PFrameAmbe PFrameImbe.
Import ListNotations.
Local Open Scope Z_scope.

Lemma scramble_row_n : forall key n w r, length key = n -> row w n r -> (n <= w)%nat -> Forall is_bit key -> row w n (scramble key r).
Proof. intros key n w r <- H L B. now apply scramble_row. Qed.

Lemma slice_Forall : forall {A} (P : A -> Prop) off n l, Forall P l -> Forall P (slice off n l).
Proof. intros. unfold slice. now apply Forall_firstn, Forall_skipn. Qed.

Lemma imbe7200_scramble_frame : forall fr, imbe7200_frame fr -> imbe7200_frame (imbe7200_scramble fr).
Proof.
  intros fr (r0 & r1 & r2 & r3 & r4 & r5 & r6 & r7 & -> & R0 & R1 & R2 & R3 & R4 & R5 & R6 & R7).
  cbn [imbe7200_scramble]. cbv zeta. set (key := keybits (val (skipn 11 r0)) 114).
  assert (Lk : length key = 114%nat) by apply keybits_length. assert (Bk : Forall is_bit key) by apply keybits_bits.
  clearbody key. eexists _, _, _, _, _, _, _, _. split; [reflexivity|]. split; [exact R0|].
  split; [apply scramble_row_n; [apply slice_length; lia|exact R1|lia|now apply slice_Forall]|].
  split; [apply scramble_row_n; [apply slice_length; lia|exact R2|lia|now apply slice_Forall]|].
  split; [apply scramble_row_n; [apply slice_length; lia|exact R3|lia|now apply slice_Forall]|].
  split; [apply scramble_row_n; [apply slice_length; lia|exact R4|lia|now apply slice_Forall]|].
  split; [apply scramble_row_n; [apply slice_length; lia|exact R5|lia|now apply slice_Forall]|].
  split; [apply scramble_row_n; [apply slice_length; lia|exact R6|lia|now apply slice_Forall]|].
  exact R7.
Qed.

Lemma imbe7200_scramble_involutive : forall fr, imbe7200_frame fr -> imbe7200_scramble (imbe7200_scramble fr) = fr.
Proof.
  intros fr (r0 & r1 & r2 & r3 & r4 & r5 & r6 & r7 & -> & R0 & [L1 _] & [L2 _] & [L3 _] & [L4 _] & [L5 _] & [L6 _] & R7).
  cbn [imbe7200_scramble]. cbv zeta. set (key := keybits (val (skipn 11 r0)) 114).
  assert (Lk : length key = 114%nat) by apply keybits_length. clearbody key.
  rewrite !scramble_involutive by (rewrite slice_length by lia; lia). reflexivity.
Qed.

Definition key7200 (cw0 : list Z) : list Z := keybits (val (skipn 11 cw0)) 114.

Lemma imbe7200_frame_full : forall r0 r1 r2 r3 r4 r5 r6 r7 d0, imbe7200_frame [r0; r1; r2; r3; r4; r5; r6; r7] ->
  length d0 = 88%nat ->
  exists fr' c0 e0 c1 e1 c2 e2 c3 e3 h4 f4 h5 f5 h6 f6,
  imbe7200_frame_ecc [r0; r1; r2; r3; r4; r5; r6; r7] d0
    = Ok (fr', e0, e0 + (0 + e1 + e2 + e3 + f4 + f5 + f6), f4,
          rev (skipn 11 c0) ++ rev (skipn 11 c1) ++ rev (skipn 11 c2) ++ rev (skipn 11 c3)
           ++ rev (skipn 4 h4) ++ rev (skipn 4 h5) ++ rev (skipn 4 h6) ++ rev (firstn 7 r7))
  /\ golay_fix r0 c0 e0
  /\ golay_fix (scramble (slice 0 23 (key7200 c0)) r1) c1 e1
  /\ golay_fix (scramble (slice 23 23 (key7200 c0)) r2) c2 e2
  /\ golay_fix (scramble (slice 46 23 (key7200 c0)) r3) c3 e3
  /\ hamming_fix hamming_word (firstn 15 (scramble (slice 69 15 (key7200 c0)) r4)) h4 f4
  /\ hamming_fix hamming_word (firstn 15 (scramble (slice 84 15 (key7200 c0)) r5)) h5 f5
  /\ hamming_fix hamming_word (firstn 15 (scramble (slice 99 15 (key7200 c0)) r6)) h6 f6.
Proof.
  intros r0 r1 r2 r3 r4 r5 r6 r7 d0 (q0 & q1 & q2 & q3 & q4 & q5 & q6 & q7 & Eq & R0 & R1 & R2 & R3 & R4 & R5 & R6 & R7) Ld.
  injection Eq as <- <- <- <- <- <- <- <-.
  apply row_full in R0. destruct (golay_fix_ex r0 R0) as (c0 & e0 & G0 & D0 & O0).
  pose proof (imbe7200_c0 r0 [r1; r2; r3; r4; r5; r6; r7] c0 e0 R0 D0 O0) as E0.
  assert (Sk : skipn 11 (firstn 11 r0 ++ skipn 11 c0) = skipn 11 c0).
  { apply skipn_app_len. rewrite firstn_length, (is_bits_len _ _ R0). reflexivity. }
  remember (firstn 11 r0 ++ skipn 11 c0) as r0' eqn:Er. clear Er.
  assert (HF : imbe7200_frame [r0'; r1; r2; r3; r4; r5; r6; r7]).
  { exists r0', r1, r2, r3, r4, r5, r6, r7. apply row_full in O0. auto 10. }
  pose proof (imbe7200_demod_closed _ HF) as E1. pose proof (imbe7200_scramble_frame _ HF) as HF2.
  cbn [imbe7200_scramble] in E1, HF2. cbv zeta in E1, HF2. rewrite Sk in E1, HF2. fold (key7200 c0) in E1, HF2.
  destruct HF2 as (? & ? & ? & ? & ? & ? & ? & ? & Eq & S0 & S1 & S2 & S3 & S4 & S5 & S6 & S7).
  injection Eq as <- <- <- <- <- <- <- <-.
  apply row_full in S0, S1, S2, S3.
  destruct (imbe7200_data_closed _ _ _ _ _ _ _ _ d0 S0 S1 S2 S3 S4 S5 S6 S7 Ld)
    as (c1 & e1 & c2 & e2 & c3 & e3 & h4 & f4 & h5 & f5 & h6 & f6 & G1 & G2 & G3 & F4 & F5 & F6 & E2).
  eexists _, c0, e0, c1, e1, c2, e2, c3, e3, h4, f4, h5, f5, h6, f6. split.
  { unfold imbe7200_frame_ecc. rewrite E0. cbn [bind]. rewrite E1. cbn [bind]. rewrite E2. cbn [bind]. now rewrite Sk. }
  auto 10.
Qed.

(* received row vs sent row, both seen through the same key *)
Lemma fix_golay_row : forall key w r s cw e, length key = 23%nat -> Forall is_bit key ->
  is_bits 23 r -> golay_word w -> s = scramble key w -> hdist r s <= 3 -> golay_fix (scramble key r) cw e ->
  cw = w /\ e = hdist (skipn 11 r) (skipn 11 s).
Proof.
  intros key w r s cw e Lk Bk [Lr Br] Hw -> Hd (Hc & _ & Hu & He & _). destruct Hw as [[Lw Bw] Hw'].
  assert (Ls : length (scramble key w) = 23%nat) by (rewrite scramble_length; lia).
  assert (Bs : Forall is_bit (scramble key w)).
  { unfold scramble. rewrite Lk, firstn_all2, skipn_all2, app_nil_r by lia. apply xor_bits_bits; [exact Bw|now apply Forall_rev]. }
  assert (Ei : scramble key (scramble key w) = w) by (apply scramble_involutive; lia).
  pose proof (hdist_scramble key r (scramble key w) ltac:(lia) ltac:(lia) Br Bs Bk) as HD. rewrite Ei in HD.
  assert (E : cw = w).
  { symmetry. apply Hu; [split; [split|]; assumption|]. pose proof (HD 0%nat) as H. cbn [skipn] in H. rewrite H. exact Hd. }
  split; [exact E|]. rewrite He, E, <- (HD 11%nat). reflexivity.
Qed.

Lemma scramble_firstn : forall key n r, length key = n -> (n <= length r)%nat ->
  firstn n (scramble key r) = scramble key (firstn n r).
Proof.
  intros key n r Lk L. destruct (scramble_low key r ltac:(lia)) as [H _]. rewrite Lk in H. rewrite H. unfold scramble. rewrite Lk.
  rewrite firstn_firstn, Nat.min_id.
  rewrite (skipn_all2 (firstn n r)) by (rewrite firstn_length; lia). now rewrite app_nil_r.
Qed.

Lemma fix_ham_row : forall (word : list Z -> Prop) key w r s cw e, (forall l, word l -> is_bits 15 l) ->
  length key = 15%nat -> Forall is_bit key -> (15 <= length r)%nat -> (15 <= length w)%nat ->
  is_bits 15 (firstn 15 r) -> word (firstn 15 w) -> s = scramble key w ->
  hdist (firstn 15 r) (firstn 15 s) <= 1 -> hamming_fix word (firstn 15 (scramble key r)) cw e ->
  cw = firstn 15 w /\ e = hdist (firstn 15 r) (firstn 15 s).
Proof.
  intros word key w r s cw e Hwb Lk Bk Lr Lw Br Hw -> Hd (_ & _ & _ & Hu & He & _).
  rewrite scramble_firstn in * by assumption.
  destruct (Hwb _ Hw) as [Lw15 Bw]. destruct Br as [Lr15 Br].
  set (w15 := firstn 15 w) in *. set (r15 := firstn 15 r) in *. clearbody w15 r15.
  assert (Ls : length (scramble key w15) = 15%nat) by (rewrite scramble_length; lia).
  assert (Bs : Forall is_bit (scramble key w15)).
  { unfold scramble. rewrite Lk, firstn_all2, skipn_all2, app_nil_r by lia. apply xor_bits_bits; [exact Bw|now apply Forall_rev]. }
  assert (Ei : scramble key (scramble key w15) = w15) by (apply scramble_involutive; lia).
  pose proof (hdist_scramble key r15 (scramble key w15) ltac:(lia) ltac:(lia) Br Bs Bk 0) as HD. cbn [skipn] in HD. rewrite Ei in HD.
  assert (E : cw = w15) by (symmetry; apply Hu; [exact Hw|now rewrite HD]).
  split; [exact E|]. now rewrite He, E, HD.
Qed.

Lemma slice_8 : forall (d : list Z), length d = 88%nat ->
  slice 0 12 d ++ slice 12 12 d ++ slice 24 12 d ++ slice 36 12 d ++ slice 48 11 d ++ slice 59 11 d ++ slice 70 11 d ++ slice 81 7 d = d.
Proof. intros d H. do 88 (destruct d as [|? d]; [discriminate H|]). destruct d; [reflexivity|discriminate H]. Qed.

Lemma skipn_slice : forall {A} k n (l : list A), skipn k (firstn (k + n) l) = slice k n l.
Proof. intros A k n l. unfold slice. rewrite skipn_firstn_comm. f_equal. lia. Qed.

Lemma hamming_word_bits : forall l, hamming_word l -> is_bits 15 l.
Proof. intros l [H _]. exact H. Qed.

Lemma imbe7200_recovers : forall d sent got d0, length d = 88%nat -> imbe7200_encoded d sent ->
  imbe7200_frame sent -> imbe7200_frame got -> imbe7200_channel sent got -> length d0 = 88%nat ->
  exists fr', imbe7200_frame_ecc got d0 = Ok (fr', golay_flips 0 sent got,
    golay_flips 0 sent got + golay_flips 1 sent got + golay_flips 2 sent got + golay_flips 3 sent got
    + hamming_flips 4 sent got + hamming_flips 5 sent got + hamming_flips 6 sent got,
    hamming_flips 4 sent got, d).
Proof.
  intros d sent got d0 Ld (w & (w0 & w1 & w2 & w3 & w4 & w5 & w6 & w7 & -> & W0 & V0 & W1 & V1 & W2 & V2 & W3 & V3 & W4 & V4 & W5 & V5 & W6 & V6 & V7)
    & Es) HS HG (s0 & s1 & s2 & s3 & s4 & s5 & s6 & s7 & r0 & r1 & r2 & r3 & r4 & r5 & r6 & r7 & -> & -> & C0 & C1 & C2 & C3 & C4 & C5 & C6 & C7) L0.
  cbn [imbe7200_scramble] in Es. cbv zeta in Es. fold (key7200 w0) in Es.
  injection Es as E0 E1 E2 E3 E4 E5 E6 E7. subst s0 s7.
  destruct (imbe7200_frame_full r0 r1 r2 r3 r4 r5 r6 r7 d0 HG L0)
    as (fr' & c0 & e0 & c1 & e1 & c2 & e2 & c3 & e3 & h4 & f4 & h5 & f5 & h6 & f6 & E & G0 & G1 & G2 & G3 & F4 & F5 & F6).
  assert (Ec0 : c0 = w0) by (symmetry; apply G0; assumption). subst c0.
  set (key := key7200 w0) in *.
  assert (Lk : length key = 114%nat) by apply keybits_length. assert (Bk : Forall is_bit key) by apply keybits_bits.
  clearbody key.
  destruct HG as (? & ? & ? & ? & ? & ? & ? & ? & Eq & R0 & R1 & R2 & R3 & R4 & R5 & R6 & R7). injection Eq as <- <- <- <- <- <- <- <-.
  destruct HS as (? & ? & ? & ? & ? & ? & ? & ? & Eq & T0 & T1 & T2 & T3 & T4 & T5 & T6 & T7). injection Eq as <- <- <- <- <- <- <- <-.
  apply row_full in R0, R1, R2, R3, T0, T1, T2, T3.
  assert (Hlen : forall (word : list Z -> Prop) l, (forall l, word l -> is_bits 15 l) -> word (firstn 15 l) -> (15 <= length l)%nat).
  { intros word l H1 H2. apply H1 in H2. destruct H2 as [H2 _]. rewrite firstn_length in H2. lia. }
  assert (Hb15 : forall r, row 23 15 r -> is_bits 15 (firstn 15 r)).
  { intros r R. rewrite <- slice_0. apply (slice_is_bits 23 15); [exact R|lia|lia]. }
  destruct (fix_golay_row (slice 0 23 key) w1 r1 s1 c1 e1) as [-> ->]; try assumption; [apply slice_length; lia|now apply slice_Forall|].
  destruct (fix_golay_row (slice 23 23 key) w2 r2 s2 c2 e2) as [-> ->]; try assumption; [apply slice_length; lia|now apply slice_Forall|].
  destruct (fix_golay_row (slice 46 23 key) w3 r3 s3 c3 e3) as [-> ->]; try assumption; [apply slice_length; lia|now apply slice_Forall|].
  destruct (fix_ham_row hamming_word (slice 69 15 key) w4 r4 s4 h4 f4) as [-> ->]; try assumption;
    [apply hamming_word_bits|apply slice_length; lia|now apply slice_Forall|destruct R4; lia|apply (Hlen hamming_word); [apply hamming_word_bits|exact W4]|now apply Hb15|].
  destruct (fix_ham_row hamming_word (slice 84 15 key) w5 r5 s5 h5 f5) as [-> ->]; try assumption;
    [apply hamming_word_bits|apply slice_length; lia|now apply slice_Forall|destruct R5; lia|apply (Hlen hamming_word); [apply hamming_word_bits|exact W5]|now apply Hb15|].
  destruct (fix_ham_row hamming_word (slice 99 15 key) w6 r6 s6 h6 f6) as [-> ->]; try assumption;
    [apply hamming_word_bits|apply slice_length; lia|now apply slice_Forall|destruct R6; lia|apply (Hlen hamming_word); [apply hamming_word_bits|exact W6]|now apply Hb15|].
  destruct G0 as (_ & _ & _ & He0 & _).
  exists fr'. rewrite E. unfold golay_flips, hamming_flips. cbn [nth].
  rewrite (slice_all 11 12 r0), (slice_all 11 12 r1), (slice_all 11 12 r2), (slice_all 11 12 r3)
    by (match goal with |- (length ?r <= _)%nat => match goal with H : is_bits 23 r |- _ => rewrite (is_bits_len _ _ H); lia end end).
  rewrite (slice_all 11 12 w0), (slice_all 11 12 s1), (slice_all 11 12 s2), (slice_all 11 12 s3)
    by (match goal with |- (length ?r <= _)%nat => match goal with H : is_bits 23 r |- _ => rewrite (is_bits_len _ _ H); lia end end).
  rewrite <- He0, C7, V0, V1, V2, V3.
  assert (S15 : forall l : list Z, skipn 4 (firstn 15 l) = slice 4 11 l) by exact (skipn_slice 4 11).
  rewrite !S15, V4, V5, V6, V7, slice_8 by exact Ld.
  do 2 f_equal. f_equal. f_equal. lia.
Qed.

(* every parameter vector has an encoding *)
Lemma hamming_encode_ex : forall b, is_bits 11 b -> exists cw, hamming_word cw /\ rev (skipn 4 cw) = b.
Proof.
  intros b Hb. set (data := rev b). assert (Hd : is_bits 11 data) by now apply is_bits_rev.
  set (s := label_sum [3; 5; 6; 7; 9; 10; 11; 12; 13; 14; 15] data).
  assert (Hs : 0 <= s < 2 ^ 4).
  { apply label_sum_range. repeat (constructor; [lia|]). constructor. }
  exists (bits_of 4 s ++ data). split.
  - split; [apply (is_bits_app 4 11); [apply bits_of_bits|exact Hd]|].
    change hamming_labels with ([1; 2; 4; 8] ++ [3; 5; 6; 7; 9; 10; 11; 12; 13; 14; 15]).
    assert (E : forall la l lb l', length la = length l -> label_sum (la ++ lb) (l ++ l') = Z.lxor (label_sum la l) (label_sum lb l')).
    { clear. induction la as [|x la IH]; intros [|y l] lb l' L; try discriminate L; [reflexivity|].
      cbn [app label_sum]. rewrite IH by now injection L. now rewrite Z.lxor_assoc. }
    rewrite E by reflexivity. fold s. replace (label_sum [1; 2; 4; 8] (bits_of 4 s)) with s; [apply Z.lxor_nilpotent|].
    clearbody s. change (2 ^ 4) with 16 in Hs. by_cases16 s Hs; reflexivity.
  - rewrite skipn_app_len by reflexivity. unfold data. apply rev_involutive.
Qed.

Lemma golay_encode_row : forall m off d, is_bits m d -> (off + 12 <= m)%nat ->
  exists cw, golay_word cw /\ rev (skipn 11 cw) = slice off 12 d.
Proof. intros m off d Hd H. apply golay_encode_ex. now apply (is_bits_slice m). Qed.

Lemma imbe7200_encoding_exists : forall d, is_bits 88 d -> exists fr, imbe7200_encoded d fr /\ imbe7200_frame fr.
Proof.
  intros d Hd.
  destruct (golay_encode_row 88 0 d Hd ltac:(lia)) as (c0 & W0 & E0).
  destruct (golay_encode_row 88 12 d Hd ltac:(lia)) as (c1 & W1 & E1).
  destruct (golay_encode_row 88 24 d Hd ltac:(lia)) as (c2 & W2 & E2).
  destruct (golay_encode_row 88 36 d Hd ltac:(lia)) as (c3 & W3 & E3).
  destruct (hamming_encode_ex (slice 48 11 d) (is_bits_slice 88 48 11 d Hd ltac:(lia))) as (h4 & W4 & E4).
  destruct (hamming_encode_ex (slice 59 11 d) (is_bits_slice 88 59 11 d Hd ltac:(lia))) as (h5 & W5 & E5).
  destruct (hamming_encode_ex (slice 70 11 d) (is_bits_slice 88 70 11 d Hd ltac:(lia))) as (h6 & W6 & E6).
  pose proof (is_bits_slice 88 81 7 d Hd ltac:(lia)) as H7.
  set (w := [c0; c1; c2; c3; h4 ++ repeat 0 8; h5 ++ repeat 0 8; h6 ++ repeat 0 8; rev (slice 81 7 d) ++ repeat 0 16]).
  assert (F : forall h, hamming_word h -> firstn 15 (h ++ repeat 0 8) = h).
  { intros h [[L _] _]. now apply firstn_app_len. }
  assert (F4 : forall h, hamming_word h -> slice 4 11 (h ++ repeat 0 8) = skipn 4 h).
  { intros h H. rewrite <- (skipn_slice 4 11). change (4 + 11)%nat with 15%nat. now rewrite F. }
  assert (F7 : firstn 7 (rev (slice 81 7 d) ++ repeat 0 16) = rev (slice 81 7 d)).
  { apply firstn_app_len. rewrite rev_length. apply H7. }
  assert (Ww : imbe7200_words d w).
  { eexists _, _, _, _, _, _, _, _. split; [reflexivity|]. rewrite !F, !F4, F7, rev_involutive by assumption. auto 20. }
  assert (HF : imbe7200_frame w).
  { assert (R15 : forall h, hamming_word h -> row 23 15 (h ++ repeat 0 8)).
    { intros h H. split; [rewrite app_length, repeat_length, (is_bits_len _ _ (hamming_word_bits _ H)); reflexivity|].
      rewrite F by exact H. apply (hamming_word_bits _ H). }
    eexists _, _, _, _, _, _, _, _. split; [reflexivity|].
    split; [apply row_full, W0|]. split; [apply row_full, W1|]. split; [apply row_full, W2|]. split; [apply row_full, W3|].
    split; [now apply R15|]. split; [now apply R15|]. split; [now apply R15|].
    split; [rewrite app_length, rev_length, (is_bits_len _ _ H7); reflexivity|]. rewrite F7. apply (is_bits_rev _ _ H7). }
  exists (imbe7200_scramble w). split; [exists w; auto|now apply imbe7200_scramble_frame].
Qed.
