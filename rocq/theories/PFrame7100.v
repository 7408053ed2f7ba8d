(* IMBE 7100x4400 frames: closed forms and property-level lemmas. *)
From Coq Require Import ZArith List Bool Lia.
From Verif Require Import Res F32 MEcc MFrame SpecEcc SpecFrame PBase PEcc PHam PLoop PFrameAmbe PFrameImbe PFrame7200 PConv.
Import ListNotations.
Local Open Scope Z_scope.

Lemma splice_skipn : forall {A} off new (r : list A) k, (off <= length r)%nat -> (k <= length new)%nat ->
  skipn (off + k) (splice off new r) = skipn k new ++ skipn (off + length new) r.
Proof.
  intros A off new r k H1 H2. unfold splice. rewrite <- skipn_skipn'. rewrite skipn_app_len by (rewrite firstn_length; lia).
  rewrite skipn_app. replace (k - length new)%nat with 0%nat by lia. reflexivity.
Qed.

Definition c0_in (r0 : list Z) : list Z := slice 1 18 r0 ++ repeat 0 5.

Lemma row_bits18 : forall r0, row 24 19 r0 -> is_bits 23 (c0_in r0).
Proof.
  intros r0 R. apply (is_bits_app 18 5); [|apply is_bits_check; reflexivity].
  apply (slice_is_bits 24 19); [exact R|lia|lia].
Qed.

Lemma imbe7100_c0 : forall r0 rest cw e, row 24 19 r0 ->
  mbe_golay2312 (c0_in r0) = Ok (firstn 11 (c0_in r0) ++ skipn 11 cw, e) ->
  is_bits 23 (firstn 11 (c0_in r0) ++ skipn 11 cw) ->
  mbe_eccImbe7100x4400C0 (r0 :: rest)
  = Ok (splice 1 (firstn 18 (firstn 11 (c0_in r0) ++ skipn 11 cw)) r0 :: rest, e).
Proof.
  intros r0 rest cw e [L B] Hdec [Lo Bo]. unfold mbe_eccImbe7100x4400C0, for_up.
  change (Z.to_nat (18 - 0)) with 18%nat. change (Z.to_nat (23 - 18)) with 5%nat.
  assert (Ls : length (slice 1 18 r0) = 18%nat) by (apply slice_length; lia).
  eapply bind_Ok.
  { pose proof (fill_up Some (fun j => rd2 (r0 :: rest) 0 (j + 1)) (slice 1 18 r0) [] (repeat None 18) (repeat None 5) 0 eq_refl) as H.
    rewrite Ls in H. apply H; [reflexivity|]. intros k Hk.
    destruct (slice_nth_ex 1 18 r0 k ltac:(lia) ltac:(lia)) as (x & Hx & Ex). exists x. split; [|exact Ex].
    change (rd r0 (0 + Z.of_nat k + 1) = Ok x). rewrite <- Hx. f_equal. lia. }
  cbv beta. eapply bind_Ok.
  { pose proof (fill_up Some (fun _ => Ok 0) (repeat 0 5) (map Some (slice 1 18 r0)) (repeat None 5) [] 18) as H.
    rewrite app_nil_r in H. change (length (repeat 0 5)) with 5%nat in H. apply H.
    - rewrite map_length, Ls. reflexivity.
    - reflexivity.
    - intros k Hk. exists 0. split; [reflexivity|]. do 5 (destruct k as [|k]; [reflexivity|]). lia. }
  cbv beta. eapply bind_Ok.
  { cbn [app]. rewrite app_nil_r, <- map_app. apply all_init_some. }
  cbv beta. fold (c0_in r0). rewrite Hdec. cbn [bind].
  remember (firstn 11 (c0_in r0) ++ skipn 11 cw) as out eqn:Eo. clear Eo.
  pose proof (copy_out_spec [] r0 rest 0 1 18 out eq_refl ltac:(lia) ltac:(lia)) as H.
  cbn [app] in H. change (Z.of_nat 1) with 1 in H. change (Z.of_nat 18) with 18 in H. rewrite H. reflexivity.
Qed.

Lemma imbe7100_seed : forall r0 rest, row 24 19 r0 -> exists tmp,
  for_down 18 12 (fun i '(s, j) =>
      c <- rd2 (r0 :: rest) 0 i ;; s' <- wr s j (Some (to_char (c + 48))) ;; Ok (s', j + 1))
    (repeat None 7 ++ Some 0 :: repeat None 16, 0) = Ok (tmp, 7)
  /\ strtol2 tmp = Ok (val (slice 12 7 r0)).
Proof.
  intros r0 rest R. pose proof (slice_is_bits 24 19 12 7 r0 R ltac:(lia) ltac:(lia)) as [Ls Bs]. destruct R as [L B].
  exists (map digit (rev (slice 12 7 r0)) ++ Some 0 :: repeat None 16). split.
  - exact (digit_loop r0 7 12 [] (repeat None 7) (Some 0 :: repeat None 16) 18 0 eq_refl eq_refl ltac:(lia) eq_refl).
  - rewrite strtol2_bits.
    + now rewrite rev_involutive.
    + now apply Forall_rev.
    + intros E. apply (f_equal (@length Z)) in E. rewrite rev_length, Ls in E. discriminate E.
Qed.

Lemma imbe7100_demod_closed : forall fr, imbe7100_frame fr ->
  mbe_demodulateImbe7100x4400Data fr = Ok (imbe7100_scramble fr).
Proof.
  intros fr (r0 & r1 & r2 & r3 & r4 & r5 & r6 & -> & R0 & [L1 B1] & [L2 B2] & [L3 B3] & [L4 B4] & [L5 B5] & R6).
  pose proof (is_bits_val_range 7 _ (slice_is_bits 24 19 12 7 r0 R0 ltac:(lia) ltac:(lia))) as Hs.
  change (2 ^ Z.of_nat 7) with 128 in Hs.
  unfold mbe_demodulateImbe7100x4400Data.
  change (wr (fresh 24) 7 (Some 0)) with (Ok (repeat (@None Z) 7 ++ Some 0 :: repeat None 16)). cbn [bind].
  destruct (imbe7100_seed r0 [r1; r2; r3; r4; r5; r6] R0) as (tmp & Et & Ev). rewrite Et. cbn [bind].
  rewrite Ev. cbn [bind]. rewrite to_u16_small by lia.
  destruct (imbe_key (val (slice 12 7 r0)) 100 ltac:(lia) ltac:(lia)) as (pr & E1 & E2).
  change (Z.of_nat 101) with 101 in E1, E2. rewrite E1. cbn [bind]. rewrite E2. cbn [bind]. clear E1 E2 pr Et Ev tmp.
  cbn [imbe7100_scramble]. cbv zeta.
  set (key := keybits (val (slice 12 7 r0)) 100) in *.
  assert (Lk : length key = 100%nat) by apply keybits_length.
  assert (Bk : Forall is_bit key) by apply keybits_bits. clearbody key.
  generalize (16 * val (slice 12 7 r0)). intros s0. clear Hs.
  remember (repeat (@None Z) (114 - 100)) as tail eqn:Et. clear Et.
  unfold for_up. change (Z.to_nat (4 - 2)) with 2%nat. change (Z.to_nat (6 - 4)) with 2%nat. cbn [loop].
  change (2 + 1) with 3. change (4 + 1) with 5.
  pose proof (demod_slice [r0] r1 [r2; r3; r4; r5; r6] 1 23 s0 key tail 0 24 1
    eq_refl eq_refl eq_refl ltac:(lia) ltac:(lia) Bk B1) as H1.
  change ([r0] ++ ?x) with (r0 :: x) in H1. change (1 + Z.of_nat 24) with 25 in H1. rewrite H1. cbn [bind]. clear H1.
  set (q1 := scramble (slice 0 24 key) r1) in *.
  pose proof (demod_slice [r0; q1] r2 [r3; r4; r5; r6] 2 22 s0 key tail 24 23 25
    eq_refl eq_refl eq_refl ltac:(lia) ltac:(lia) Bk B2) as H1.
  change ([r0; q1] ++ ?x) with (r0 :: q1 :: x) in H1. change (25 + Z.of_nat 23) with 48 in H1. rewrite H1. cbn [bind]. clear H1.
  set (q2 := scramble (slice 24 23 key) r2) in *.
  pose proof (demod_slice [r0; q1; q2] r3 [r4; r5; r6] 3 22 s0 key tail 47 23 48
    eq_refl eq_refl eq_refl ltac:(lia) ltac:(lia) Bk B3) as H1.
  change ([r0; q1; q2] ++ ?x) with (r0 :: q1 :: q2 :: x) in H1. change (48 + Z.of_nat 23) with 71 in H1. rewrite H1. cbn [bind]. clear H1.
  set (q3 := scramble (slice 47 23 key) r3) in *.
  pose proof (demod_slice [r0; q1; q2; q3] r4 [r5; r6] 4 14 s0 key tail 70 15 71
    eq_refl eq_refl eq_refl ltac:(lia) ltac:(lia) Bk B4) as H1.
  change ([r0; q1; q2; q3] ++ ?x) with (r0 :: q1 :: q2 :: q3 :: x) in H1. change (71 + Z.of_nat 15) with 86 in H1. rewrite H1. cbn [bind]. clear H1.
  set (q4 := scramble (slice 70 15 key) r4) in *.
  pose proof (demod_slice [r0; q1; q2; q3; q4] r5 [r6] 5 14 s0 key tail 85 15 86
    eq_refl eq_refl eq_refl ltac:(lia) ltac:(lia) Bk B5) as H1.
  change ([r0; q1; q2; q3; q4] ++ ?x) with (r0 :: q1 :: q2 :: q3 :: q4 :: x) in H1. rewrite H1. reflexivity.
Qed.

Lemma imbe7100_scramble_frame : forall fr, imbe7100_frame fr -> imbe7100_frame (imbe7100_scramble fr).
Proof.
  intros fr (r0 & r1 & r2 & r3 & r4 & r5 & r6 & -> & R0 & R1 & R2 & R3 & R4 & R5 & R6).
  cbn [imbe7100_scramble]. cbv zeta. set (key := keybits (val (slice 12 7 r0)) 100).
  assert (Lk : length key = 100%nat) by apply keybits_length. assert (Bk : Forall is_bit key) by apply keybits_bits.
  clearbody key. eexists _, _, _, _, _, _, _. split; [reflexivity|]. split; [exact R0|].
  split; [apply scramble_row_n; [apply slice_length; lia|exact R1|lia|now apply slice_Forall]|].
  split; [apply scramble_row_n; [apply slice_length; lia|exact R2|lia|now apply slice_Forall]|].
  split; [apply scramble_row_n; [apply slice_length; lia|exact R3|lia|now apply slice_Forall]|].
  split; [apply scramble_row_n; [apply slice_length; lia|exact R4|lia|now apply slice_Forall]|].
  split; [apply scramble_row_n; [apply slice_length; lia|exact R5|lia|now apply slice_Forall]|].
  exact R6.
Qed.

Lemma imbe7100_scramble_involutive : forall fr, imbe7100_frame fr -> imbe7100_scramble (imbe7100_scramble fr) = fr.
Proof.
  intros fr (r0 & r1 & r2 & r3 & r4 & r5 & r6 & -> & R0 & [L1 _] & [L2 _] & [L3 _] & [L4 _] & [L5 _] & R6).
  cbn [imbe7100_scramble]. cbv zeta. set (key := keybits (val (slice 12 7 r0)) 100).
  assert (Lk : length key = 100%nat) by apply keybits_length. clearbody key.
  rewrite !scramble_involutive by (rewrite slice_length by lia; lia). reflexivity.
Qed.

Lemma imbe7100_data_closed : forall r0 r1 r2 r3 r4 r5 r6 d,
  row 24 19 r0 -> row 24 24 r1 -> row 24 23 r2 -> row 24 23 r3 -> row 24 15 r4 -> row 24 15 r5 ->
  row 24 23 r6 -> length d = 88%nat ->
  exists c1 e1 c2 e2 c3 e3 h4 f4 h5 f5,
  golay_fix (slice 1 23 r1) c1 e1 /\ golay_fix (firstn 23 r2) c2 e2 /\ golay_fix (firstn 23 r3) c3 e3
  /\ hamming_fix hamming7100_word (firstn 15 r4) h4 f4 /\ hamming_fix hamming7100_word (firstn 15 r5) h5 f5
  /\ mbe_eccImbe7100x4400DataInternal [r0; r1; r2; r3; r4; r5; r6] d
     = Ok (rev (slice 12 7 r0) ++ rev (skipn 11 c1) ++ rev (skipn 11 c2) ++ rev (skipn 11 c3)
           ++ rev (skipn 4 h4) ++ rev (skipn 4 h5) ++ rev (firstn 23 r6),
           e1 + e2 + e3 + f4 + f5, f4).
Proof.
  intros r0 r1 r2 r3 r4 r5 r6 d R0 R1 R2 R3 R4 R5 R6 Ld.
  pose proof (slice_is_bits 24 24 1 23 r1 R1 ltac:(lia) ltac:(lia)) as H1.
  pose proof (slice_is_bits 24 23 0 23 r2 R2 ltac:(lia) ltac:(lia)) as H2.
  pose proof (slice_is_bits 24 23 0 23 r3 R3 ltac:(lia) ltac:(lia)) as H3.
  pose proof (slice_is_bits 24 15 0 15 r4 R4 ltac:(lia) ltac:(lia)) as H4. rewrite slice_0 in H4.
  pose proof (slice_is_bits 24 15 0 15 r5 R5 ltac:(lia) ltac:(lia)) as H5. rewrite slice_0 in H5.
  destruct (golay_fix_ex _ H1) as (c1 & e1 & G1 & D1 & O1).
  destruct (golay_fix_ex _ H2) as (c2 & e2 & G2 & D2 & O2).
  destruct (golay_fix_ex _ H3) as (c3 & e3 & G3 & D3 & O3).
  destruct (hamming7100_fix_ex _ H4) as (h4 & f4 & F4 & D4).
  destruct (hamming7100_fix_ex _ H5) as (h5 & f5 & F5 & D5).
  exists c1, e1, c2, e2, c3, e3, h4, f4, h5, f5.
  split; [exact G1|]. split; [exact G2|]. split; [exact G3|]. split; [exact F4|]. split; [exact F5|].
  destruct R0 as [L0 _], R1 as [L1 _], R2 as [L2 _], R3 as [L3 _], R4 as [L4 _], R5 as [L5 _], R6 as [L6 _].
  set (fr := [r0; r1; r2; r3; r4; r5; r6]) in *.
  unfold mbe_eccImbe7100x4400DataInternal, for_up.
  change (Z.to_nat (4 - 2)) with 2%nat. change (Z.to_nat (6 - 4)) with 2%nat.
  assert (Lm : length (map Some d) = 88%nat) by now rewrite map_length.
  eapply bind_Ok; [reflexivity|]. eapply bind_Ok.
  { apply (emit_next r0 18 12 7 12 [] (map Some d) 0); reflexivity || lia. }
  cbv beta.
  etransitivity.
  { match goal with |- context [emit_down _ 22 11 (?p ++ ?q, _)] =>
      refine (golay_emit fr 1 r1 1 c1 e1 p q eq_refl ltac:(lia) H1 G1 D1 O1 ltac:(rewrite skipn_length; lia) _) end. }
  cbv beta. eapply bind_Ok.
  { eapply loop_step.
    { cbv beta iota. change (2 + 1) with 3.
      match goal with |- context [emit_down _ 22 11 (?p ++ ?q, _)] =>
        exact (golay_emit fr 2 r2 0 c2 e2 p q eq_refl ltac:(lia) H2 G2 D2 O2 ltac:(rewrite !skipn_length; lia)
        (fun st' e => Ok (st', e1 + e))) end. }
    eapply loop_step.
    { cbv beta iota. change (2 + 1) with 3.
      match goal with |- context [emit_down _ 22 11 (?p ++ ?q, _)] =>
        exact (golay_emit fr 3 r3 0 c3 e3 p q eq_refl ltac:(lia) H3 G3 D3 O3 ltac:(rewrite !skipn_length; lia)
        (fun st' e => Ok (st', e1 + e2 + e))) end. }
    reflexivity. }
  cbv beta iota. eapply bind_Ok.
  { eapply loop_step.
    { cbv beta iota. change (4 + 1) with 5.
      match goal with |- context [emit_down _ 14 4 (?p ++ ?q, _)] =>
        exact (ham_emit mbe_7100x4400hamming1511 fr 4 r4 h4 f4 p q eq_refl ltac:(lia) D4 (proj1 (proj2 F4)) ltac:(rewrite !skipn_length; lia)
        (fun st' e => Ok (st', e1 + e2 + e3 + e, if 4 =? 4 then e else 0))) end. }
    eapply loop_step.
    { cbv beta iota. change (4 + 1) with 5.
      match goal with |- context [emit_down _ 14 4 (?p ++ ?q, _)] =>
        exact (ham_emit mbe_7100x4400hamming1511 fr 5 r5 h5 f5 p q eq_refl ltac:(lia) D5 (proj1 (proj2 F5)) ltac:(rewrite !skipn_length; lia)
        (fun st' e => Ok (st', e1 + e2 + e3 + f4 + e, if 5 =? 4 then e else f4))) end. }
    reflexivity. }
  cbv beta iota. eapply bind_Ok; [reflexivity|]. eapply bind_Ok.
  { apply (emit_next r6 22 0 23 0); try reflexivity; [lia|rewrite !skipn_length; lia]. }
  cbv beta iota. rewrite !skipn_skipn', (skipn_all2 (map Some d)) by (cbn [plus]; lia). rewrite app_nil_r. cbn [app].
  rewrite slice_0. rewrite <- !map_app, all_init_some. cbn [bind]. now rewrite <- !app_assoc.
Qed.

Definition key7100 (cw0 : list Z) : list Z := keybits (val (slice 11 7 cw0)) 100.

Lemma imbe7100_frame_full : forall r0 r1 r2 r3 r4 r5 r6 d0, imbe7100_frame [r0; r1; r2; r3; r4; r5; r6] ->
  length d0 = 88%nat ->
  exists fr' c0 e0 c1 e1 c2 e2 c3 e3 h4 f4 h5 f5 d7100,
  d7100 = rev (slice 11 7 c0) ++ rev (skipn 11 c1) ++ rev (skipn 11 c2) ++ rev (skipn 11 c3)
           ++ rev (skipn 4 h4) ++ rev (skipn 4 h5) ++ rev (firstn 23 r6)
  /\ is_bits 88 d7100
  /\ imbe7100_frame_ecc [r0; r1; r2; r3; r4; r5; r6] d0
    = Ok (fr', e0, e0 + (e1 + e2 + e3 + f4 + f5), f4, reorder7200 (Z.to_nat (imbe_bands (pitch7100 d7100))) d7100)
  /\ golay_fix (slice 1 18 r0 ++ repeat 0 5) c0 e0
  /\ golay_fix (slice 1 23 (scramble (slice 0 24 (key7100 c0)) r1)) c1 e1
  /\ golay_fix (firstn 23 (scramble (slice 24 23 (key7100 c0)) r2)) c2 e2
  /\ golay_fix (firstn 23 (scramble (slice 47 23 (key7100 c0)) r3)) c3 e3
  /\ hamming_fix hamming7100_word (firstn 15 (scramble (slice 70 15 (key7100 c0)) r4)) h4 f4
  /\ hamming_fix hamming7100_word (firstn 15 (scramble (slice 85 15 (key7100 c0)) r5)) h5 f5.
Proof.
  intros r0 r1 r2 r3 r4 r5 r6 d0 (q0 & q1 & q2 & q3 & q4 & q5 & q6 & Eq & R0 & R1 & R2 & R3 & R4 & R5 & R6) Ld.
  injection Eq as <- <- <- <- <- <- <-.
  pose proof (row_bits18 r0 R0) as B0.
  destruct (golay_fix_ex (c0_in r0) B0) as (c0 & e0 & G0 & D0 & O0).
  pose proof (imbe7100_c0 r0 [r1; r2; r3; r4; r5; r6] c0 e0 R0 D0 O0) as E0. clear D0.
  fold (c0_in r0).
  assert (Sk : skipn 11 (firstn 11 (c0_in r0) ++ skipn 11 c0) = skipn 11 c0).
  { apply skipn_app_len. rewrite firstn_length, (is_bits_len _ _ B0). reflexivity. }
  remember (firstn 11 (c0_in r0) ++ skipn 11 c0) as out eqn:Eo. clear Eo.
  destruct O0 as [Lo Bo]. destruct R0 as [L0 Br0].
  assert (R0' : row 24 19 (splice 1 (firstn 18 out) r0)).
  { split.
    - unfold splice. rewrite !app_length, !firstn_length, skipn_length. lia.
    - unfold splice. rewrite app_assoc. rewrite firstn_app_len by (rewrite app_length, !firstn_length; lia).
      apply Forall_app. split; [|now apply Forall_firstn].
      replace (firstn 1 r0) with (firstn 1 (firstn 19 r0)) by (rewrite firstn_firstn; reflexivity).
      now apply Forall_firstn. }
  assert (Sd : slice 12 7 (splice 1 (firstn 18 out) r0) = slice 11 7 c0).
  { unfold slice. change 12%nat with (1 + 11)%nat at 1. rewrite splice_skipn by (rewrite ?firstn_length; lia).
    rewrite firstn_app_len by (rewrite skipn_length, firstn_length; lia).
    change (firstn 18 out) with (firstn (11 + 7) out). rewrite (skipn_slice 11 7 out). unfold slice. now rewrite Sk. }
  remember (splice 1 (firstn 18 out) r0) as r0' eqn:Er. clear Er.
  assert (HF : imbe7100_frame [r0'; r1; r2; r3; r4; r5; r6]).
  { exists r0', r1, r2, r3, r4, r5, r6. auto 10. }
  pose proof (imbe7100_demod_closed _ HF) as E1. pose proof (imbe7100_scramble_frame _ HF) as HF2.
  cbn [imbe7100_scramble] in E1, HF2. cbv zeta in E1, HF2. rewrite Sd in E1, HF2.
  change (keybits (val (slice 11 7 c0)) 100) with (key7100 c0) in E1, HF2.
  destruct HF2 as (? & ? & ? & ? & ? & ? & ? & Eq & S0 & S1 & S2 & S3 & S4 & S5 & S6).
  injection Eq as <- <- <- <- <- <- <-.
  destruct (imbe7100_data_closed _ _ _ _ _ _ _ d0 S0 S1 S2 S3 S4 S5 S6 Ld)
    as (c1 & e1 & c2 & e2 & c3 & e3 & h4 & f4 & h5 & f5 & G1 & G2 & G3 & F4 & F5 & E2).
  rewrite Sd in E2.
  eexists _, c0, e0, c1, e1, c2, e2, c3, e3, h4, f4, h5, f5, _. split; [reflexivity|].
  assert (Hb : is_bits 88 (rev (slice 11 7 c0) ++ rev (skipn 11 c1) ++ rev (skipn 11 c2) ++ rev (skipn 11 c3)
           ++ rev (skipn 4 h4) ++ rev (skipn 4 h5) ++ rev (firstn 23 r6))).
  { assert (Gw : forall l c e, golay_fix l c e -> is_bits 23 c) by (intros l c e H; apply H).
    assert (Hw : forall l c e, hamming_fix hamming7100_word l c e -> is_bits 15 c) by (intros l c e H; apply H).
    apply Gw in G0, G1, G2, G3. apply Hw in F4, F5.
    assert (T : forall k n l, is_bits (k + n) l -> is_bits n (skipn k l)).
    { intros k n l [L B]. split; [rewrite skipn_length; lia|now apply Forall_skipn]. }
    apply (is_bits_app 7 81); [apply is_bits_rev, (is_bits_slice 23); [exact G0|lia]|].
    apply (is_bits_app 12 69); [now apply is_bits_rev, (T 11%nat 12%nat)|].
    apply (is_bits_app 12 57); [now apply is_bits_rev, (T 11%nat 12%nat)|].
    apply (is_bits_app 12 45); [now apply is_bits_rev, (T 11%nat 12%nat)|].
    apply (is_bits_app 11 34); [now apply is_bits_rev, (T 4%nat 11%nat)|].
    apply (is_bits_app 11 23); [now apply is_bits_rev, (T 4%nat 11%nat)|].
    apply is_bits_rev. exact (slice_is_bits 24 23 0 23 r6 R6 ltac:(lia) ltac:(lia)). }
  split; [exact Hb|].
  split.
  { unfold imbe7100_frame_ecc. rewrite E0. cbn [bind]. rewrite E1. cbn [bind]. rewrite E2. cbn [bind].
    rewrite convert_spec by exact Hb. reflexivity. }
  auto 10.
Qed.

(* Received row vs sent row, through a key longer than the Golay word: row 1 *)
Lemma hdist_app : forall a b c d, length a = length b -> hdist (a ++ c) (b ++ d) = hdist a b + hdist c d.
Proof.
  induction a as [|x a IH]; intros [|y b] c d L; try discriminate L; [reflexivity|].
  cbn [app hdist]. rewrite IH by now injection L. lia.
Qed.

Lemma hdist_refl : forall a, hdist a a = 0.
Proof. induction a as [|x a IH]; [reflexivity|]. cbn [hdist]. rewrite Z.eqb_refl, IH. reflexivity. Qed.

Lemma fix_golay_row1 : forall key w r s cw e, length key = 24%nat -> Forall is_bit key ->
  row 24 24 r -> row 24 24 s -> golay_word (slice 1 23 w) -> length w = 24%nat -> s = scramble key w ->
  hdist (slice 1 23 r) (slice 1 23 s) <= 3 ->
  golay_fix (slice 1 23 (scramble key r)) cw e ->
  cw = slice 1 23 w /\ e = hdist (slice 12 12 r) (slice 12 12 s).
Proof.
  intros key w r s cw e Lk Bk R S Hw Lw -> Hd (Hc & _ & Hu & He & _).
  apply row_full in R. apply row_full in S. destruct R as [Lr Br]. destruct S as [Ls Bs].
  assert (Ei : scramble key (scramble key w) = w) by (apply scramble_involutive; lia).
  pose proof (hdist_scramble key r (scramble key w) ltac:(lia) ltac:(lia) Br Bs Bk) as HD. rewrite Ei in HD.
  rewrite (slice_all 1 23) in Hd by lia. rewrite (slice_all 1 23) in Hd by lia. 
  assert (Lr' : length (scramble key r) = 24%nat) by (rewrite scramble_length; lia).
  rewrite (slice_all 1 23 (scramble key r)) in Hu, He by lia.
  assert (E : cw = slice 1 23 w).
  { symmetry. apply Hu; [exact Hw|]. rewrite (slice_all 1 23 w) by lia. rewrite (HD 1%nat). exact Hd. }
  split; [exact E|]. rewrite He, E, (slice_all 1 23 w) by lia. rewrite !(skipn_skipn' 11 1).
  rewrite (slice_all 12 12 r) by lia. rewrite (slice_all 12 12 (scramble key w)) by lia. apply (HD 12%nat).
Qed.

Lemma fix_golay_row23 : forall key w r s cw e, length key = 23%nat -> Forall is_bit key ->
  row 24 23 r -> golay_word (firstn 23 w) -> s = scramble key w ->
  hdist (firstn 23 r) (firstn 23 s) <= 3 ->
  golay_fix (firstn 23 (scramble key r)) cw e ->
  cw = firstn 23 w /\ e = hdist (slice 11 12 r) (slice 11 12 s).
Proof.
  intros key w r s cw e Lk Bk R Hw Es Hd HG. subst s. destruct R as [Lr Br].
  assert (Lw : (23 <= length w)%nat) by (destruct Hw as [[L _] _]; rewrite firstn_length in L; lia).
  rewrite (scramble_firstn key 23) in Hd, HG by lia.
  rewrite <- !(skipn_slice 11 12). change (11 + 12)%nat with 23%nat. rewrite (scramble_firstn key 23 w) by lia.
  apply (fix_golay_row key); try assumption; [|reflexivity].
  split; [rewrite firstn_length; lia|exact Br].
Qed.

Lemma hamming7100_word_bits : forall l, hamming7100_word l -> is_bits 15 l.
Proof. intros l [H _]. exact H. Qed.

Lemma slice_7 : forall (d : list Z), length d = 88%nat ->
  slice 0 7 d ++ slice 7 12 d ++ slice 19 12 d ++ slice 31 12 d ++ slice 43 11 d ++ slice 54 11 d ++ slice 65 23 d = d.
Proof. intros d H. do 88 (destruct d as [|? d]; [discriminate H|]). destruct d; [reflexivity|discriminate H]. Qed.

Lemma imbe7100_recovers : forall d sent got d0, length d = 88%nat -> imbe7100_encoded d sent ->
  imbe7100_frame sent -> imbe7100_frame got -> imbe7100_channel sent got -> length d0 = 88%nat ->
  exists fr', imbe7100_frame_ecc got d0 = Ok (fr',
    hdist (slice 12 7 (nth 0 got [])) (slice 12 7 (nth 0 sent [])),
    hdist (slice 12 7 (nth 0 got [])) (slice 12 7 (nth 0 sent []))
    + hdist (slice 12 12 (nth 1 got [])) (slice 12 12 (nth 1 sent []))
    + golay_flips 2 sent got + golay_flips 3 sent got + hamming_flips 4 sent got + hamming_flips 5 sent got,
    hamming_flips 4 sent got, reorder7200 (Z.to_nat (imbe_bands (pitch7100 d))) d).
Proof.
  intros d sent got d0 Ld (w & (w0 & w1 & w2 & w3 & w4 & w5 & w6 & -> & W0 & V0 & W1 & V1 & W2 & V2 & W3 & V3 & W4 & V4 & W5 & V5 & V6)
    & Es) HS HG (s0 & s1 & s2 & s3 & s4 & s5 & s6 & r0 & r1 & r2 & r3 & r4 & r5 & r6 & -> & -> & C0 & C1 & C2 & C3 & C4 & C5 & C6) L0.
  cbn [imbe7100_scramble] in Es. cbv zeta in Es.
  injection Es as E0 E1 E2 E3 E4 E5 E6. subst s0 s6.
  destruct (imbe7100_frame_full r0 r1 r2 r3 r4 r5 r6 d0 HG L0)
    as (fr' & c0 & e0 & c1 & e1 & c2 & e2 & c3 & e3 & h4 & f4 & h5 & f5 & d7 & Ed7 & _ & E & G0 & G1 & G2 & G3 & F4 & F5).
  destruct HG as (? & ? & ? & ? & ? & ? & ? & Eq & R0 & R1 & R2 & R3 & R4 & R5 & R6). injection Eq as <- <- <- <- <- <- <-.
  destruct HS as (? & ? & ? & ? & ? & ? & ? & Eq & T0 & T1 & T2 & T3 & T4 & T5 & T6). injection Eq as <- <- <- <- <- <- <-.
  assert (Lr0 : length (slice 1 18 r0) = 18%nat) by (apply slice_length; destruct R0; lia).
  assert (Lw0 : length (slice 1 18 w0) = 18%nat) by (apply slice_length; destruct T0; lia).
  assert (Ec0 : c0 = slice 1 18 w0 ++ repeat 0 5).
  { symmetry. apply G0; [exact W0|]. rewrite hdist_app, hdist_refl by lia. lia. }
  assert (Es0 : forall x, (19 <= length x)%nat -> slice 11 7 (slice 1 18 x ++ repeat 0 5) = slice 12 7 x).
  { intros x Lx. change (slice 1 18 x) with (firstn 18 (skipn 1 x)). unfold slice. rewrite skipn_app.
    rewrite firstn_length, skipn_length. replace (11 - min 18 (length x - 1))%nat with 0%nat by lia.
    rewrite skipn_firstn_comm, skipn_skipn'. change (18 - 11)%nat with 7%nat. change (1 + 11)%nat with 12%nat.
    rewrite (firstn_app_len 7) by (rewrite firstn_length, skipn_length; lia). reflexivity. }
  assert (Ek : key7100 c0 = keybits (val (slice 12 7 w0)) 100).
  { unfold key7100. rewrite Ec0, Es0 by (destruct T0; lia). reflexivity. }
  rewrite Ek in *. clear Ek.
  set (key := keybits (val (slice 12 7 w0)) 100) in *.
  assert (Lk : length key = 100%nat) by apply keybits_length. assert (Bk : Forall is_bit key) by apply keybits_bits.
  clearbody key.
  assert (Hlen : forall (word : list Z -> Prop) l, (forall l, word l -> is_bits 15 l) -> word (firstn 15 l) -> (15 <= length l)%nat).
  { intros word l H1 H2. apply H1 in H2. destruct H2 as [H2 _]. rewrite firstn_length in H2. lia. }
  assert (Hb15 : forall r, row 24 15 r -> is_bits 15 (firstn 15 r)).
  { intros r R. rewrite <- slice_0. apply (slice_is_bits 24 15); [exact R|lia|lia]. }
  assert (Lw1 : length w1 = 24%nat).
  { destruct T1 as [T1 _]. rewrite E1 in T1. destruct (Nat.le_gt_cases 24 (length w1)) as [H|H].
    - rewrite scramble_length in T1 by (rewrite slice_length; lia). exact T1.
    - exfalso. unfold scramble in T1. assert (W23 : (23 <= length (skipn 1 w1))%nat).
      { destruct W1 as [[W1 _] _]. unfold slice in W1. rewrite firstn_length in W1. lia. }
      rewrite skipn_length in W23. lia. }
  destruct (fix_golay_row1 (slice 0 24 key) w1 r1 s1 c1 e1) as [-> ->]; try assumption; [apply slice_length; lia|now apply slice_Forall|].
  destruct (fix_golay_row23 (slice 24 23 key) w2 r2 s2 c2 e2) as [-> ->]; try assumption; [apply slice_length; lia|now apply slice_Forall|].
  destruct (fix_golay_row23 (slice 47 23 key) w3 r3 s3 c3 e3) as [-> ->]; try assumption; [apply slice_length; lia|now apply slice_Forall|].
  destruct (fix_ham_row hamming7100_word (slice 70 15 key) w4 r4 s4 h4 f4) as [-> ->]; try assumption;
    [apply hamming7100_word_bits|apply slice_length; lia|now apply slice_Forall|destruct R4; lia|apply (Hlen hamming7100_word); [apply hamming7100_word_bits|exact W4]|now apply Hb15|].
  destruct (fix_ham_row hamming7100_word (slice 85 15 key) w5 r5 s5 h5 f5) as [-> ->]; try assumption;
    [apply hamming7100_word_bits|apply slice_length; lia|now apply slice_Forall|destruct R5; lia|apply (Hlen hamming7100_word); [apply hamming7100_word_bits|exact W5]|now apply Hb15|].
  destruct G0 as (_ & _ & _ & He0 & _).
  assert (Ee0 : e0 = hdist (slice 12 7 r0) (slice 12 7 w0)).
  { rewrite He0, Ec0. rewrite !skipn_app, Lr0, Lw0. change (11 - 18)%nat with 0%nat. rewrite hdist_app by (rewrite !skipn_length; lia).
    rewrite hdist_refl, Z.add_0_r. unfold slice. rewrite !skipn_firstn_comm, !skipn_skipn'. reflexivity. }
  assert (Ed : d7 = d).
  { rewrite Ed7, Ec0, Es0 by (destruct T0; lia). rewrite V0.
    unfold slice at 2. rewrite skipn_firstn_comm, skipn_skipn'. change (23 - 11)%nat with 12%nat. change (1 + 11)%nat with 12%nat.
    change (firstn 12 (skipn 12 w1)) with (slice 12 12 w1).
    rewrite (skipn_slice 11 12 w2 : skipn 11 (firstn 23 w2) = _), (skipn_slice 11 12 w3 : skipn 11 (firstn 23 w3) = _).
    rewrite (skipn_slice 4 11 w4 : skipn 4 (firstn 15 w4) = _), (skipn_slice 4 11 w5 : skipn 4 (firstn 15 w5) = _).
    rewrite C6, V1, V2, V3, V4, V5, V6. now apply slice_7. }
  exists fr'. rewrite E, Ed, Ee0. unfold golay_flips, hamming_flips. cbn [nth].
  do 2 f_equal. f_equal. f_equal. lia.
Qed.

(* every parameter vector has an encoding *)
Lemma hamming7100_encode_ex : forall b, is_bits 11 b -> exists cw, hamming7100_word cw /\ rev (skipn 4 cw) = b.
Proof.
  intros b Hb. assert (Hrb : is_bits 11 (rev b)) by now apply is_bits_rev.
  pose proof (is_bits_val_range 11 (rev b) Hrb) as Hv. set (v := val (rev b)) in *. change (2 ^ Z.of_nat 11) with 2048 in Hv.
  destruct (clmul_div hamming7100_poly 4 ltac:(lia) ltac:(vm_compute; split; congruence) ltac:(reflexivity) 11 (Z.shiftl v 4))
    as (q & r & Hq & Hr & E).
  { rewrite Z.shiftl_mul_pow2 by lia. change (2 ^ (Z.of_nat 11 + 4)) with (2048 * 2 ^ 4). lia. }
  assert (Ecw : clmul 11 q hamming7100_poly = Z.shiftl v 4 + r).
  { symmetry in E. apply lxor_eq_swap in E. rewrite Z.lxor_comm in E.
    rewrite <- lxor_disjoint_add by (lia || exact Hr). exact E. }
  assert (Hcr : 0 <= clmul 11 q hamming7100_poly < 2 ^ Z.of_nat 15).
  { rewrite Ecw, Z.shiftl_mul_pow2 by lia. change (2 ^ Z.of_nat 15) with (2048 * 2 ^ 4). lia. }
  exists (bits_of 15 (clmul 11 q hamming7100_poly)). split.
  - split; [apply bits_of_bits|]. rewrite val_bits_of by exact Hcr. exists q. split; [exact Hq|reflexivity].
  - rewrite <- (rev_involutive b). f_equal. change 15%nat with (4 + 11)%nat. rewrite bits_of_skipn, Ecw.
    rewrite Z.shiftl_mul_pow2 by lia. change (2 ^ Z.of_nat 4) with (2 ^ 4). rewrite Z.div_add_l by lia.
    rewrite Z.div_small by exact Hr. rewrite Z.add_0_r. unfold v. apply (val_inj 11); [apply bits_of_bits|exact Hrb|].
    apply val_bits_of. exact (is_bits_val_range 11 (rev b) Hrb).
Qed.

Lemma imbe7100_encoding_exists : forall d, is_bits 88 d -> exists fr, imbe7100_encoded d fr /\ imbe7100_frame fr.
Proof.
  intros d Hd.
  destruct (golay_encode_ex (repeat 0 5 ++ slice 0 7 d)) as (c0 & W0 & E0).
  { apply (is_bits_app 5 7); [apply is_bits_check; reflexivity|apply (is_bits_slice 88); [exact Hd|lia]]. }
  destruct (golay_encode_row 88 7 d Hd ltac:(lia)) as (c1 & W1 & E1).
  destruct (golay_encode_row 88 19 d Hd ltac:(lia)) as (c2 & W2 & E2).
  destruct (golay_encode_row 88 31 d Hd ltac:(lia)) as (c3 & W3 & E3).
  destruct (hamming7100_encode_ex (slice 43 11 d) (is_bits_slice 88 43 11 d Hd ltac:(lia))) as (h4 & W4 & E4).
  destruct (hamming7100_encode_ex (slice 54 11 d) (is_bits_slice 88 54 11 d Hd ltac:(lia))) as (h5 & W5 & E5).
  pose proof (is_bits_slice 88 65 23 d Hd ltac:(lia)) as H6.
  pose proof (is_bits_slice 88 0 7 d Hd ltac:(lia)) as H0.
  assert (B23 : forall c, golay_word c -> length c = 23%nat) by (intros c [[L _] _]; exact L).
  assert (B15 : forall c, hamming7100_word c -> length c = 15%nat) by (intros c [[L _] _]; exact L).
  assert (Ec0 : c0 = firstn 18 c0 ++ repeat 0 5 /\ rev (slice 11 7 c0) = slice 0 7 d).
  { apply (f_equal (@rev Z)) in E0. rewrite rev_involutive, rev_app_distr in E0. change (rev (repeat 0 5)) with (repeat 0 5) in E0.
    assert (S18 : skipn 18 c0 = repeat 0 5).
    { change 18%nat with (11 + 7)%nat. rewrite <- skipn_skipn', E0. apply skipn_app_len. rewrite rev_length. apply H0. }
    split; [rewrite <- S18; symmetry; apply firstn_skipn|].
    unfold slice at 1. rewrite E0, firstn_app_len by (rewrite rev_length; apply H0). apply rev_involutive. }
  destruct Ec0 as [Ec0 Ed0].
  set (w := [0 :: firstn 18 c0 ++ repeat 0 5; 0 :: c1; c2 ++ [0]; c3 ++ [0]; h4 ++ repeat 0 9; h5 ++ repeat 0 9; rev (slice 65 23 d) ++ [0]]).
  assert (F : forall h, hamming7100_word h -> firstn 15 (h ++ repeat 0 9) = h) by (intros h H; apply firstn_app_len; auto).
  assert (F4 : forall h, hamming7100_word h -> slice 4 11 (h ++ repeat 0 9) = skipn 4 h).
  { intros h H. rewrite <- (skipn_slice 4 11). change (4 + 11)%nat with 15%nat. now rewrite F. }
  assert (Fg : forall c, golay_word c -> firstn 23 (c ++ [0]) = c) by (intros c H; apply firstn_app_len; auto).
  assert (F11 : forall c, golay_word c -> slice 11 12 (c ++ [0]) = skipn 11 c).
  { intros h H. rewrite <- (skipn_slice 11 12). change (11 + 12)%nat with 23%nat. now rewrite Fg. }
  assert (F6 : firstn 23 (rev (slice 65 23 d) ++ [0]) = rev (slice 65 23 d)).
  { apply firstn_app_len. rewrite rev_length. apply H6. }
  assert (S1 : slice 1 23 (0 :: c1) = c1) by (unfold slice; cbn [skipn]; apply firstn_all2; rewrite B23; auto).
  assert (S12 : slice 12 12 (0 :: c1) = skipn 11 c1).
  { change (slice 12 12 (0 :: c1)) with (firstn 12 (skipn 11 c1)). apply firstn_all2. rewrite skipn_length, B23 by assumption. lia. }
  assert (S0 : slice 1 18 (0 :: firstn 18 c0 ++ repeat 0 5) = firstn 18 c0).
  { unfold slice. cbn [skipn]. apply firstn_app_len. rewrite firstn_length, B23 by assumption. reflexivity. }
  assert (S07 : slice 12 7 (0 :: firstn 18 c0 ++ repeat 0 5) = slice 11 7 c0).
  { rewrite <- Ec0. reflexivity. }
  assert (Ww : imbe7100_words d w).
  { eexists _, _, _, _, _, _, _. split; [reflexivity|].
    rewrite S0, <- Ec0, S1, S12, !Fg, !F11, !F, !F4, F6, rev_involutive by assumption.
    change (slice 12 7 (0 :: c0)) with (slice 11 7 c0). auto 20. }
  assert (HF : imbe7100_frame w).
  { assert (R15 : forall h, hamming7100_word h -> row 24 15 (h ++ repeat 0 9)).
    { intros h H. split; [rewrite app_length, repeat_length, (B15 _ H); reflexivity|].
      rewrite F by exact H. apply (hamming7100_word_bits _ H). }
    assert (R23 : forall c, golay_word c -> row 24 23 (c ++ [0])).
    { intros h H. split; [rewrite app_length, (B23 _ H); reflexivity|]. rewrite Fg by exact H. apply H. }
    eexists _, _, _, _, _, _, _. split; [reflexivity|]. rewrite <- Ec0.
    split; [split; [cbn [length]; now rewrite B23|apply Forall_firstn; constructor; [now left|apply W0]]|].
    split; [split; [cbn [length]; now rewrite B23|apply Forall_firstn; constructor; [now left|apply W1]]|].
    split; [now apply R23|]. split; [now apply R23|]. split; [now apply R15|]. split; [now apply R15|].
    split; [rewrite app_length, rev_length, (is_bits_len _ _ H6); reflexivity|]. rewrite F6. apply (is_bits_rev _ _ H6). }
  exists (imbe7100_scramble w). split; [exists w; auto|now apply imbe7100_scramble_frame].
Qed.

(* ---- bounds on the counters, all frames ---- *)

Lemma imbe7200_bounds : forall fr d0, imbe7200_frame fr -> length d0 = 88%nat ->
  exists fr' errs errs2 c4 d, imbe7200_frame_ecc fr d0 = Ok (fr', errs, errs2, c4, d)
  /\ is_bits 88 d /\ 0 <= errs <= 3 /\ errs <= errs2 <= 15 /\ 0 <= c4 <= 1.
Proof.
  intros fr d0 HF L. destruct HF as (r0 & r1 & r2 & r3 & r4 & r5 & r6 & r7 & -> & HF').
  assert (HF : imbe7200_frame [r0; r1; r2; r3; r4; r5; r6; r7]) by (exists r0, r1, r2, r3, r4, r5, r6, r7; auto).
  destruct (imbe7200_frame_full r0 r1 r2 r3 r4 r5 r6 r7 d0 HF L)
    as (fr' & c0 & e0 & c1 & e1 & c2 & e2 & c3 & e3 & h4 & f4 & h5 & f5 & h6 & f6 & E & G0 & G1 & G2 & G3 & F4 & F5 & F6).
  exists fr'. eexists _, _, _, _. split; [exact E|]. destruct HF' as (_ & _ & _ & _ & _ & _ & _ & R7).
  assert (T : forall k n l, is_bits (k + n) l -> is_bits n (rev (skipn k l))).
  { intros k n l [L1 B1]. apply is_bits_rev. split; [rewrite skipn_length; lia|now apply Forall_skipn]. }
  destruct G0 as ([B0 _] & _ & _ & _ & H0), G1 as ([B1 _] & _ & _ & _ & H1), G2 as ([B2 _] & _ & _ & _ & H2),
    G3 as ([B3 _] & _ & _ & _ & H3), F4 as (_ & B4 & _ & _ & _ & H4), F5 as (_ & B5 & _ & _ & _ & H5), F6 as (_ & B6 & _ & _ & _ & H6).
  split; [|lia].
  apply (is_bits_app 12 76); [now apply (T 11%nat 12%nat)|]. apply (is_bits_app 12 64); [now apply (T 11%nat 12%nat)|].
  apply (is_bits_app 12 52); [now apply (T 11%nat 12%nat)|]. apply (is_bits_app 12 40); [now apply (T 11%nat 12%nat)|].
  apply (is_bits_app 11 29); [now apply (T 4%nat 11%nat)|]. apply (is_bits_app 11 18); [now apply (T 4%nat 11%nat)|].
  apply (is_bits_app 11 7); [now apply (T 4%nat 11%nat)|].
  apply is_bits_rev. exact (slice_is_bits 23 7 0 7 r7 R7 ltac:(lia) ltac:(lia)).
Qed.

Lemma imbe7100_bounds : forall fr d0, imbe7100_frame fr -> length d0 = 88%nat ->
  exists fr' errs errs2 c4 d, imbe7100_frame_ecc fr d0 = Ok (fr', errs, errs2, c4, d)
  /\ is_bits 88 d /\ 0 <= errs <= 3 /\ errs <= errs2 <= 14 /\ 0 <= c4 <= 1.
Proof.
  intros fr d0 HF L. destruct HF as (r0 & r1 & r2 & r3 & r4 & r5 & r6 & -> & HF').
  assert (HF : imbe7100_frame [r0; r1; r2; r3; r4; r5; r6]) by (exists r0, r1, r2, r3, r4, r5, r6; auto).
  destruct (imbe7100_frame_full r0 r1 r2 r3 r4 r5 r6 d0 HF L)
    as (fr' & c0 & e0 & c1 & e1 & c2 & e2 & c3 & e3 & h4 & f4 & h5 & f5 & d7 & _ & B7 & E & G0 & G1 & G2 & G3 & F4 & F5).
  exists fr'. eexists _, _, _, _. split; [exact E|]. split.
  { apply reorder_bits; [|exact B7]. apply (harmonics_of_b0 _ (pitch7100_range d7 B7)). }
  destruct G0 as (_ & _ & _ & _ & H0), G1 as (_ & _ & _ & _ & H1), G2 as (_ & _ & _ & _ & H2),
    G3 as (_ & _ & _ & _ & H3), F4 as (_ & _ & _ & _ & _ & H4), F5 as (_ & _ & _ & _ & _ & H5).
  lia.
Qed.

Lemma ambe_bounds : forall fr d0, ambe_frame fr -> length d0 = 49%nat ->
  exists fr' errs errs2 d, ambe_frame_ecc fr d0 = Ok (fr', errs, errs2, d)
  /\ is_bits 49 d /\ 0 <= errs <= 3 /\ errs <= errs2 <= 6.
Proof.
  intros fr d0 HF L. pose proof HF as HF0.
  destruct (ambe_frame_full fr d0 HF L) as (r0 & r1 & r2 & r3 & fr' & errs & errs2 & d & cw0 & c1 & cw1 & -> & E & W0 & _ & _ & _ & W1 & _ & _ & Ed & H0 & _ & _ & _ & H2).
  destruct HF0 as (? & ? & ? & ? & Eq & _ & _ & R2 & R3). injection Eq as <- <- <- <-.
  exists fr', errs, errs2, d. split; [exact E|]. split; [|lia]. rewrite Ed.
  assert (T : forall k n l, is_bits (k + n) l -> is_bits n (rev (skipn k l))).
  { intros k n l [L1 B1]. apply is_bits_rev. split; [rewrite skipn_length; lia|now apply Forall_skipn]. }
  apply (is_bits_app 12 37); [apply (T 11%nat 12%nat), W0|]. apply (is_bits_app 12 25); [apply (T 11%nat 12%nat), W1|].
  apply (is_bits_app 11 14); apply is_bits_rev.
  - exact (slice_is_bits 24 11 0 11 r2 R2 ltac:(lia) ltac:(lia)).
  - exact (slice_is_bits 24 14 0 14 r3 R3 ltac:(lia) ltac:(lia)).
Qed.

(* the extra bit of AMBE C0: what the code does *)
Lemma ambe_c0_extra_bit : forall r0 r1 r2 r3, row 24 24 r0 -> exists r0' errs cw,
  mbe_eccAmbe3600C0_common [r0; r1; r2; r3] = Ok ([r0'; r1; r2; r3], errs)
  /\ golay_word cw /\ hdist (skipn 1 r0) cw <= 3
  /\ (nth 0 r0' 0 <> nth 0 r0 0 <->
      skipn 12 r0 = skipn 11 cw /\ Z.odd (fold_right Z.add 0 r0) = true).
Proof.
  intros r0 r1 r2 r3 R0. destruct (row24_split r0 R0) as (p & l & -> & Hp & Hl).
  destruct (ambe_c0_closed p l r1 r2 r3 Hp Hl) as (cw & e & Hcw & Hd & Hu & He & Hr & Hob & Heq).
  change (skipn 1 (p :: l)) with l. change (skipn 12 (p :: l)) with (skipn 11 l).
  assert (Et : total l = fold_right Z.add 0 l) by (clear; induction l as [|x l IH]; [reflexivity|cbn; now rewrite IH]).
  cbn [fold_right]. rewrite <- Et.
  destruct (e =? 0) eqn:E0.
  - apply Z.eqb_eq in E0. rewrite E0 in He. symmetry in He. apply (hdist_data_eq l cw Hl Hcw) in He.
    destruct (Z.odd (p + total l)).
    + exists (flip p :: l), 1, cw. split; [exact Heq|]. split; [exact Hcw|]. split; [exact Hd|].
      cbn [nth]. split; [auto|]. intros _. destruct Hp as [-> | ->]; discriminate.
    + exists (p :: l), 0, cw. split; [exact Heq|]. split; [exact Hcw|]. split; [exact Hd|].
      cbn [nth]. split; [intros H; now contradiction H|]. intros [_ H]. discriminate H.
  - exists (p :: firstn 11 l ++ skipn 11 cw), e, cw. split; [exact Heq|]. split; [exact Hcw|]. split; [exact Hd|].
    cbn [nth]. split; [intros H; now contradiction H|]. intros [H _]. exfalso. apply Z.eqb_neq in E0. apply E0.
    rewrite He, H. apply hdist_refl.
Qed.
