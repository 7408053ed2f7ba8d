(* Proofs about the IMBE frame functions (imbe7200x4400.c, imbe7100x4400.c). *)
From Coq Require Import ZArith List Bool Lia.
From Verif Require Import Res MEcc MFrame SpecEcc SpecFrame PBase PEcc PHam PLoop PFrameAmbe.
Import ListNotations.
Local Open Scope Z_scope.

(* ---- reading binary digits with strtol ---- *)

Definition digit (b : Z) : option Z := Some (to_char (b + 48)).

Lemma digit_loop : forall (src : list Z) n lo pre mid tail i p, i = Z.of_nat (lo + n) - 1 -> p = Z.of_nat (length pre) ->
  (lo + n <= length src)%nat -> length mid = n ->
  loop n i (-1) (fun i '(s, j) => c <- rd src i ;; s' <- wr s j (Some (to_char (c + 48))) ;; Ok (s', j + 1)) (pre ++ mid ++ tail, p)
  = Ok (pre ++ map digit (rev (slice lo n src)) ++ tail, p + Z.of_nat n).
Proof.
  intros src. induction n as [|n IH]; intros lo pre mid tail i p Hi Hp Hs Hm.
  - destruct mid; [|discriminate]. unfold slice. cbn [loop firstn rev map app]. do 2 f_equal. lia.
  - destruct mid as [|m mid]; [discriminate|]. cbn [loop].
    destruct (slice_nth_ex lo (S n) src n Hs ltac:(lia)) as (x & Hx & Ex).
    replace i with (Z.of_nat (lo + n)) by lia. rewrite Hx. cbn [bind app]. rewrite wr_at by exact Hp. cbn [bind].
    rewrite (snoc_app pre). fold (digit x). rewrite (IH lo (pre ++ [digit x]) mid tail).
    + f_equal. f_equal; [|lia]. rewrite <- app_assoc. f_equal. cbn [app]. rewrite nth_error_slice in Ex by lia.
      assert (E : slice lo (S n) src = slice lo n src ++ [x]).
      { apply nth_error_split in Ex. destruct Ex as (l1 & l2 & -> & L1). unfold slice.
        rewrite !skipn_app. replace (lo - length l1)%nat with 0%nat by lia. cbn [skipn].
        rewrite !firstn_app, skipn_length, L1. replace (S n - (lo + n - lo))%nat with 1%nat by lia.
        replace (n - (lo + n - lo))%nat with 0%nat by lia.
        rewrite !(firstn_all2 (skipn lo l1)) by (rewrite skipn_length; lia). cbn [firstn]. now rewrite app_nil_r. }
      rewrite E, rev_app_distr. reflexivity.
    + lia.
    + rewrite app_length. cbn [length]. lia.
    + lia.
    + now injection Hm.
Qed.

Fixpoint horner (acc : Z) (l : list Z) : Z := match l with [] => acc | b :: l' => horner (2 * acc + b) l' end.

Lemma horner_val : forall l acc, horner acc l = acc * 2 ^ Z.of_nat (length l) + val (rev l).
Proof.
  induction l as [|b l IH] using rev_ind; intros acc.
  - cbn. lia.
  - assert (E : forall l acc x, horner acc (l ++ [x]) = 2 * horner acc l + x).
    { clear. induction l as [|y l IH]; intros acc x; [reflexivity|]. cbn [app horner]. apply IH. }
    rewrite E, IH, rev_app_distr, app_length. cbn [rev app val length].
    rewrite Nat.add_1_r, Nat2Z.inj_succ, Z.pow_succ_r by lia. lia.
Qed.

Lemma strtol2_digits_bits : forall l acc tail, Forall is_bit l ->
  strtol2_digits (map digit l ++ Some 0 :: tail) acc = Ok (horner acc l).
Proof.
  induction l as [|b l IH]; intros acc tail Hb; [reflexivity|].
  inversion Hb as [|? ? H Hl]; subst. destruct H as [-> | ->]; cbn [map app horner strtol2_digits].
  - change (digit 0) with (Some 48). rewrite Z.add_0_r. exact (IH (2 * acc) tail Hl).
  - change (digit 1) with (Some 49). exact (IH (2 * acc + 1) tail Hl).
Qed.

Lemma strtol2_bits : forall l tail, Forall is_bit l -> l <> [] ->
  strtol2 (map digit l ++ Some 0 :: tail) = Ok (val (rev l)).
Proof.
  intros l tail Hb Hn. destruct l as [|b l]; [contradiction|].
  assert (E : strtol2 (map digit (b :: l) ++ Some 0 :: tail) = strtol2_digits (map digit (b :: l) ++ Some 0 :: tail) 0).
  { inversion Hb as [|? ? H Hl]; subst. destruct H as [-> | ->]; reflexivity. }
  rewrite E, strtol2_digits_bits by exact Hb. f_equal. rewrite horner_val. lia.
Qed.

Lemma to_u16_small : forall v, 0 <= v < 65536 -> to_u16 v = v.
Proof. intros v H. unfold to_u16. now apply Z.mod_small. Qed.

Lemma shiftr15 : forall x, 0 <= x < 65536 -> Z.shiftr x 15 = x / 32768.
Proof. intros x _. now rewrite Z.shiftr_div_pow2 by lia. Qed.

(* ---- demodulating with part of the key ---- *)

Lemma demod_slice : forall a r b rw hi s key tail off n k,
  rw = Z.of_nat (length a) -> hi = Z.of_nat n - 1 -> k = Z.of_nat (1 + off) ->
  (off + n <= length key)%nat -> (n <= length r)%nat -> Forall is_bit key -> Forall is_bit (firstn n r) ->
  demod_row ([Some s] ++ map Some key ++ tail) rw hi (a ++ r :: b, k)
  = Ok (a ++ scramble (slice off n key) r :: b, k + Z.of_nat n).
Proof.
  intros a r b rw hi s key tail off n k Hrw Hhi Hk Hlen Hr Bk Br.
  pose proof (slice_length off n key Hlen) as Ls.
  replace ([Some s] ++ map Some key ++ tail)
    with (([Some s] ++ map Some (firstn off key)) ++ map Some (slice off n key) ++ map Some (skipn (off + n) key) ++ tail).
  2:{ rewrite (split3 off n key) at 4. rewrite !map_app, <- !app_assoc. reflexivity. }
  rewrite (demod_row_spec a r b rw hi _ (slice off n key) _ k).
  - now rewrite Ls.
  - exact Hrw.
  - now rewrite Ls.
  - rewrite app_length, map_length, firstn_length. cbn [length]. lia.
  - unfold slice. now apply Forall_firstn, Forall_skipn.
  - lia.
  - now rewrite Ls.
Qed.

Lemma imbe_key : forall seed n, 0 <= seed < 4096 -> (n <= 114)%nat -> exists pr, pr_fill seed (Z.of_nat (S n)) = Ok pr
  /\ for_up 1 (Z.of_nat (S n)) (fun i pr => x <- rdi pr i ;; wr pr i (Some (Z.shiftr x 15))) pr
     = Ok ([Some (16 * seed)] ++ map Some (keybits seed n) ++ repeat None (114 - n)).
Proof. intros seed n Hs Hn. exact (pr_key (fun x => Z.shiftr x 15) seed n Hs Hn shiftr15). Qed.

(* ---- decoding one row ---- *)

Definition golay_fix (l cw : list Z) (e : Z) : Prop :=
  golay_word cw /\ hdist l cw <= 3 /\ (forall cw', golay_word cw' -> hdist l cw' <= 3 -> cw' = cw)
  /\ e = hdist (skipn 11 l) (skipn 11 cw) /\ 0 <= e <= 3.

Lemma golay_fix_ex : forall l, is_bits 23 l -> exists cw e, golay_fix l cw e
  /\ mbe_golay2312 l = Ok (firstn 11 l ++ skipn 11 cw, e) /\ is_bits 23 (firstn 11 l ++ skipn 11 cw).
Proof.
  intros l Hl. destruct (golay_dec l Hl) as (cw & e & H1 & H2 & H3 & H4 & H5 & H6 & H7).
  exists cw, e. unfold golay_fix. auto 10.
Qed.

Definition hamming_fix (word : list Z -> Prop) (l cw : list Z) (e : Z) : Prop :=
  word cw /\ is_bits 15 cw /\ hdist l cw <= 1 /\ (forall cw', word cw' -> hdist l cw' <= 1 -> cw' = cw)
  /\ e = hdist l cw /\ 0 <= e <= 1.

Lemma hamming_fix_ex : forall l, is_bits 15 l -> exists cw e, hamming_fix hamming_word l cw e
  /\ mbe_hamming1511 l = Ok (cw, e).
Proof.
  intros l Hl. destruct (hamming_full l Hl) as (out & e & H1 & H2 & H3 & H4 & H5). exists out, e.
  split; [|exact H1]. split; [exact H2|]. split; [apply H2|]. split; [lia|]. split; [|split; assumption].
  intros cw' Hw Hd. symmetry. now apply H5.
Qed.

Lemma hamming7100_fix_ex : forall l, is_bits 15 l -> exists cw e, hamming_fix hamming7100_word l cw e
  /\ mbe_7100x4400hamming1511 l = Ok (cw, e).
Proof.
  intros l Hl. destruct (hamming7100_full l Hl) as (out & e & H1 & H2 & H3 & H4 & H5). exists out, e.
  split; [|exact H1]. split; [exact H2|]. split; [apply H2|]. split; [lia|]. split; [|split; assumption].
  intros cw' Hw Hd. symmetry. now apply H5.
Qed.

Lemma golay_fix_data : forall l cw e, golay_fix l cw e -> is_bits 23 l ->
  slice 11 12 (firstn 11 l ++ skipn 11 cw) = skipn 11 cw.
Proof.
  intros l cw e ((Hc & _) & _) [Ll _]. unfold slice. rewrite skipn_app_len by (rewrite firstn_length; lia).
  apply firstn_all2. rewrite skipn_length. destruct Hc. lia.
Qed.

(* one Golay row: read, decode, emit the data bits *)
Lemma golay_emit : forall fr i r off cw e pre rest, rd fr i = Ok r -> (off + 23 <= length r)%nat ->
  is_bits 23 (slice off 23 r) -> golay_fix (slice off 23 r) cw e ->
  mbe_golay2312 (slice off 23 r) = Ok (firstn 11 (slice off 23 r) ++ skipn 11 cw, e) ->
  is_bits 23 (firstn 11 (slice off 23 r) ++ skipn 11 cw) -> (12 <= length rest)%nat ->
  forall {B} (k : list (option Z) * Z -> Z -> res B),
  (gin <- copy_in fr i (Z.of_nat off) 23 ;;
   '(gout, e) <- mbe_golay2312 gin ;;
   st' <- emit_down gout 22 11 (pre ++ rest, Z.of_nat (length pre)) ;; k st' e)
  = k ((pre ++ map Some (rev (skipn 11 cw))) ++ skipn 12 rest,
       Z.of_nat (length (pre ++ map Some (rev (skipn 11 cw))))) e.
Proof.
  intros fr i r off cw e pre rest Hr Hlen Hb Hfix Hdec Hob Hrest B k.
  change 23 with (Z.of_nat 23). rewrite (copy_in_spec fr i r off 23 Hr Hlen). cbn [bind].
  rewrite Hdec. cbn [bind].
  rewrite (emit_next _ 22 11 12 11) by (reflexivity || exact Hrest || (destruct Hob as [L _]; rewrite L; lia)).
  cbn [bind]. now rewrite (golay_fix_data _ _ _ Hfix Hb).
Qed.

Lemma ham_emit : forall dec fr i r cw e pre rest, rd fr i = Ok r -> (15 <= length r)%nat ->
  dec (firstn 15 r) = Ok (cw, e) -> is_bits 15 cw -> (11 <= length rest)%nat ->
  forall {B} (k : list (option Z) * Z -> Z -> res B),
  (hin <- copy_in fr i 0 15 ;;
   '(hout, e) <- dec hin ;;
   st' <- emit_down hout 14 4 (pre ++ rest, Z.of_nat (length pre)) ;; k st' e)
  = k ((pre ++ map Some (rev (skipn 4 cw))) ++ skipn 11 rest,
       Z.of_nat (length (pre ++ map Some (rev (skipn 4 cw))))) e.
Proof.
  intros dec fr i r cw e pre rest Hr Hlen Hdec [Lc Bc] Hrest B k.
  change 15 with (Z.of_nat 15). change 0 with (Z.of_nat 0) at 1. rewrite (copy_in_spec fr i r 0 15 Hr Hlen). cbn [bind].
  rewrite slice_0, Hdec. cbn [bind].
  rewrite (emit_next _ 14 4 11 4) by (reflexivity || exact Hrest || lia). cbn [bind].
  now rewrite slice_all by lia.
Qed.

(* ---- 7200x4400 ---- *)

Lemma imbe7200_c0 : forall r0 rest cw e, is_bits 23 r0 ->
  mbe_golay2312 r0 = Ok (firstn 11 r0 ++ skipn 11 cw, e) -> is_bits 23 (firstn 11 r0 ++ skipn 11 cw) ->
  mbe_eccImbe7200x4400C0 (r0 :: rest) = Ok ((firstn 11 r0 ++ skipn 11 cw) :: rest, e).
Proof.
  intros r0 rest cw e [L B] Hdec [Lo Bo]. unfold mbe_eccImbe7200x4400C0.
  change (copy_in (r0 :: rest) 0 0 23) with (copy_in (r0 :: rest) 0 (Z.of_nat 0) (Z.of_nat 23)).
  rewrite (copy_in_spec _ 0 r0 0 23) by (reflexivity || lia). rewrite slice_0, firstn_all2 by lia. cbn [bind].
  rewrite Hdec. cbn [bind]. set (out := firstn 11 r0 ++ skipn 11 cw) in *.
  pose proof (copy_out_spec [] r0 rest 0 0 23 out eq_refl ltac:(lia) ltac:(lia)) as H.
  cbn [app] in H. change (Z.of_nat 0) with 0 in H. change (Z.of_nat 23) with 23 in H. rewrite H. cbn [bind].
  do 2 f_equal. f_equal. unfold splice. rewrite (firstn_all2 out) by lia. cbn [firstn app plus].
  rewrite Lo, skipn_all2 by lia. apply app_nil_r.
Qed.

Lemma imbe7200_seed : forall r0 rest, length r0 = 23%nat -> Forall is_bit r0 -> exists tmp,
  for_down 22 11 (fun i '(s, j) =>
      c <- rd2 (r0 :: rest) 0 i ;; s' <- wr s j (Some (to_char (c + 48))) ;; Ok (s', j + 1))
    (repeat None 12 ++ Some 0 :: repeat None 11, 0) = Ok (tmp, 12)
  /\ strtol2 tmp = Ok (val (skipn 11 r0)).
Proof.
  intros r0 rest L B. exists (map digit (rev (slice 11 12 r0)) ++ Some 0 :: repeat None 11). split.
  - exact (digit_loop r0 12 11 [] (repeat None 12) (Some 0 :: repeat None 11) 22 0 eq_refl eq_refl ltac:(lia) eq_refl).
  - rewrite slice_all by lia. rewrite strtol2_bits.
    + now rewrite rev_involutive.
    + now apply Forall_rev, Forall_skipn.
    + intros E. apply (f_equal (@length Z)) in E. rewrite rev_length, skipn_length, L in E. discriminate E.
Qed.

Lemma imbe7200_demod_closed : forall fr, imbe7200_frame fr ->
  mbe_demodulateImbe7200x4400Data fr = Ok (imbe7200_scramble fr).
Proof.
  intros fr (r0 & r1 & r2 & r3 & r4 & r5 & r6 & r7 & -> & R0 & [L1 B1] & [L2 B2] & [L3 B3] & [L4 B4] & [L5 B5] & [L6 B6] & R7).
  pose proof (seed_range 23 11 r0 R0 ltac:(lia)) as Hs.
  destruct R0 as [L0 B0]. rewrite firstn_all2 in B0 by lia.
  unfold mbe_demodulateImbe7200x4400Data.
  change (wr (fresh 24) 12 (Some 0)) with (Ok (repeat (@None Z) 12 ++ Some 0 :: repeat None 11)). cbn [bind].
  destruct (imbe7200_seed r0 [r1; r2; r3; r4; r5; r6; r7] L0 B0) as (tmp & Et & Ev). rewrite Et. cbn [bind].
  rewrite Ev. cbn [bind]. rewrite to_u16_small by lia.
  destruct (imbe_key (val (skipn 11 r0)) 114 Hs ltac:(lia)) as (pr & E1 & E2).
  change (Z.of_nat 115) with 115 in E1, E2. rewrite E1. cbn [bind]. rewrite E2. cbn [bind]. clear E1 E2 pr Et Ev tmp.
  cbn [imbe7200_scramble]. cbv zeta.
  set (key := keybits (val (skipn 11 r0)) 114) in *.
  assert (Lk : length key = 114%nat) by apply keybits_length.
  assert (Bk : Forall is_bit key) by apply keybits_bits. clearbody key.
  generalize (16 * val (skipn 11 r0)). intros s0. clear Hs.
  remember (repeat (@None Z) (114 - 114)) as tail eqn:Et. clear Et.
  unfold for_up. change (Z.to_nat (4 - 1)) with 3%nat. change (Z.to_nat (7 - 4)) with 3%nat. cbn [loop].
  change (1 + 1 + 1) with 3. change (1 + 1) with 2. change (4 + 1 + 1) with 6. change (4 + 1) with 5.
  pose proof (demod_slice [r0] r1 [r2; r3; r4; r5; r6; r7] 1 22 s0 key tail 0 23 1
    eq_refl eq_refl eq_refl ltac:(lia) ltac:(lia) Bk B1) as H1.
  change ([r0] ++ ?x) with (r0 :: x) in H1. change (1 + Z.of_nat 23) with 24 in H1. rewrite H1. cbn [bind]. clear H1.
  set (q1 := scramble (slice 0 23 key) r1) in *.
  pose proof (demod_slice [r0; q1] r2 [r3; r4; r5; r6; r7] 2 22 s0 key tail 23 23 24
    eq_refl eq_refl eq_refl ltac:(lia) ltac:(lia) Bk B2) as H1.
  change ([r0; q1] ++ ?x) with (r0 :: q1 :: x) in H1. change (24 + Z.of_nat 23) with 47 in H1. rewrite H1. cbn [bind]. clear H1.
  set (q2 := scramble (slice 23 23 key) r2) in *.
  pose proof (demod_slice [r0; q1; q2] r3 [r4; r5; r6; r7] 3 22 s0 key tail 46 23 47
    eq_refl eq_refl eq_refl ltac:(lia) ltac:(lia) Bk B3) as H1.
  change ([r0; q1; q2] ++ ?x) with (r0 :: q1 :: q2 :: x) in H1. change (47 + Z.of_nat 23) with 70 in H1. rewrite H1. cbn [bind]. clear H1.
  set (q3 := scramble (slice 46 23 key) r3) in *.
  pose proof (demod_slice [r0; q1; q2; q3] r4 [r5; r6; r7] 4 14 s0 key tail 69 15 70
    eq_refl eq_refl eq_refl ltac:(lia) ltac:(lia) Bk B4) as H1.
  change ([r0; q1; q2; q3] ++ ?x) with (r0 :: q1 :: q2 :: q3 :: x) in H1. change (70 + Z.of_nat 15) with 85 in H1. rewrite H1. cbn [bind]. clear H1.
  set (q4 := scramble (slice 69 15 key) r4) in *.
  pose proof (demod_slice [r0; q1; q2; q3; q4] r5 [r6; r7] 5 14 s0 key tail 84 15 85
    eq_refl eq_refl eq_refl ltac:(lia) ltac:(lia) Bk B5) as H1.
  change ([r0; q1; q2; q3; q4] ++ ?x) with (r0 :: q1 :: q2 :: q3 :: q4 :: x) in H1. change (85 + Z.of_nat 15) with 100 in H1. rewrite H1. cbn [bind]. clear H1.
  set (q5 := scramble (slice 84 15 key) r5) in *.
  pose proof (demod_slice [r0; q1; q2; q3; q4; q5] r6 [r7] 6 14 s0 key tail 99 15 100
    eq_refl eq_refl eq_refl ltac:(lia) ltac:(lia) Bk B6) as H1.
  change ([r0; q1; q2; q3; q4; q5] ++ ?x) with (r0 :: q1 :: q2 :: q3 :: q4 :: q5 :: x) in H1. rewrite H1. reflexivity.
Qed.

Lemma bind_Ok : forall {A B} (x : res A) (f : A -> res B) v r, x = Ok v -> f v = r -> bind x f = r.
Proof. intros A B x f v r -> H. exact H. Qed.

Lemma loop_step : forall {S} n i st (body : Z -> S -> res S) s s' r, body i s = Ok s' ->
  loop n (i + st) st body s' = r -> loop (Datatypes.S n) i st body s = r.
Proof. intros S n i st body s s' r H H2. cbn [loop]. rewrite H. exact H2. Qed.

Lemma imbe7200_data_closed : forall r0 r1 r2 r3 r4 r5 r6 r7 d,
  is_bits 23 r0 -> is_bits 23 r1 -> is_bits 23 r2 -> is_bits 23 r3 -> row 23 15 r4 -> row 23 15 r5 -> row 23 15 r6 ->
  row 23 7 r7 -> length d = 88%nat ->
  exists c1 e1 c2 e2 c3 e3 h4 f4 h5 f5 h6 f6,
  golay_fix r1 c1 e1 /\ golay_fix r2 c2 e2 /\ golay_fix r3 c3 e3
  /\ hamming_fix hamming_word (firstn 15 r4) h4 f4 /\ hamming_fix hamming_word (firstn 15 r5) h5 f5
  /\ hamming_fix hamming_word (firstn 15 r6) h6 f6
  /\ mbe_eccImbe7200x4400DataInternal [r0; r1; r2; r3; r4; r5; r6; r7] d
     = Ok (rev (skipn 11 r0) ++ rev (skipn 11 c1) ++ rev (skipn 11 c2) ++ rev (skipn 11 c3)
           ++ rev (skipn 4 h4) ++ rev (skipn 4 h5) ++ rev (skipn 4 h6) ++ rev (firstn 7 r7),
           0 + e1 + e2 + e3 + f4 + f5 + f6, f4).
Proof.
  intros r0 r1 r2 r3 r4 r5 r6 r7 d R0 R1 R2 R3 R4 R5 R6 R7 Ld.
  pose proof (slice_is_bits 23 15 0 15 r4 R4 ltac:(lia) ltac:(lia)) as H4. rewrite slice_0 in H4.
  pose proof (slice_is_bits 23 15 0 15 r5 R5 ltac:(lia) ltac:(lia)) as H5. rewrite slice_0 in H5.
  pose proof (slice_is_bits 23 15 0 15 r6 R6 ltac:(lia) ltac:(lia)) as H6. rewrite slice_0 in H6.
  destruct (golay_fix_ex r1 R1) as (c1 & e1 & G1 & D1 & O1).
  destruct (golay_fix_ex r2 R2) as (c2 & e2 & G2 & D2 & O2).
  destruct (golay_fix_ex r3 R3) as (c3 & e3 & G3 & D3 & O3).
  destruct (hamming_fix_ex _ H4) as (h4 & f4 & F4 & D4).
  destruct (hamming_fix_ex _ H5) as (h5 & f5 & F5 & D5).
  destruct (hamming_fix_ex _ H6) as (h6 & f6 & F6 & D6).
  exists c1, e1, c2, e2, c3, e3, h4, f4, h5, f5, h6, f6.
  repeat (split; [assumption|]).
  assert (E23 : forall r, is_bits 23 r -> slice 0 23 r = r).
  { intros r [L _]. rewrite slice_0. apply firstn_all2. lia. }
  assert (S1 : slice 0 23 r1 = r1) by now apply E23. assert (S2 : slice 0 23 r2 = r2) by now apply E23.
  assert (S3 : slice 0 23 r3 = r3) by now apply E23. clear E23.
  pose proof (is_bits_len _ _ R0) as L0. pose proof (is_bits_len _ _ R1) as L1. pose proof (is_bits_len _ _ R2) as L2.
  pose proof (is_bits_len _ _ R3) as L3. destruct R4 as [L4 _], R5 as [L5 _], R6 as [L6 _], R7 as [L7 _].
  set (fr := [r0; r1; r2; r3; r4; r5; r6; r7]) in *.
  unfold mbe_eccImbe7200x4400DataInternal, for_up.
  change (Z.to_nat (4 - 0)) with 4%nat. change (Z.to_nat (7 - 4)) with 3%nat.
  assert (Lm : length (map Some d) = 88%nat) by now rewrite map_length.
  eapply bind_Ok.
  { eapply loop_step.
    { cbv beta iota. change (0 <? 0) with false. cbv iota. eapply bind_Ok; [reflexivity|]. eapply bind_Ok; [|reflexivity].
      apply (emit_next r0 22 11 12 11 [] (map Some d) 0); reflexivity || lia. }
    eapply loop_step.
    { cbv beta iota. change (0 + 1 + 1 + 1) with 3. change (0 + 1 + 1) with 2. change (0 + 1) with 1. change (0 <? 1) with true. cbv iota.
      match goal with |- context [emit_down _ 22 11 (?p ++ ?q, _)] =>
        exact (golay_emit fr 1 r1 0 c1 e1 p q eq_refl ltac:(lia) ltac:(rewrite S1; exact R1)
        ltac:(rewrite S1; exact G1) ltac:(rewrite S1; exact D1) ltac:(rewrite S1; exact O1) ltac:(rewrite skipn_length; lia)
        (fun st' e => Ok (st', 0 + e))) end. }
    eapply loop_step.
    { cbv beta iota. change (0 + 1 + 1 + 1) with 3. change (0 + 1 + 1) with 2. change (0 + 1) with 1. change (0 <? 2) with true. cbv iota.
      match goal with |- context [emit_down _ 22 11 (?p ++ ?q, _)] =>
        exact (golay_emit fr 2 r2 0 c2 e2 p q eq_refl ltac:(lia) ltac:(rewrite S2; exact R2)
        ltac:(rewrite S2; exact G2) ltac:(rewrite S2; exact D2) ltac:(rewrite S2; exact O2) ltac:(rewrite !skipn_length; lia)
        (fun st' e => Ok (st', 0 + e1 + e))) end. }
    eapply loop_step.
    { cbv beta iota. change (0 + 1 + 1 + 1) with 3. change (0 + 1 + 1) with 2. change (0 + 1) with 1. change (0 <? 3) with true. cbv iota.
      match goal with |- context [emit_down _ 22 11 (?p ++ ?q, _)] =>
        exact (golay_emit fr 3 r3 0 c3 e3 p q eq_refl ltac:(lia) ltac:(rewrite S3; exact R3)
        ltac:(rewrite S3; exact G3) ltac:(rewrite S3; exact D3) ltac:(rewrite S3; exact O3) ltac:(rewrite !skipn_length; lia)
        (fun st' e => Ok (st', 0 + e1 + e2 + e))) end. }
    reflexivity. }
  cbv beta iota. eapply bind_Ok.
  { eapply loop_step.
    { cbv beta iota. change (4 + 1 + 1) with 6. change (4 + 1) with 5.
      match goal with |- context [emit_down _ 14 4 (?p ++ ?q, _)] =>
        exact (ham_emit mbe_hamming1511 fr 4 r4 h4 f4 p q eq_refl ltac:(lia) D4 (proj1 (proj2 F4)) ltac:(rewrite !skipn_length; lia)
        (fun st' e => Ok (st', 0 + e1 + e2 + e3 + e, if 4 =? 4 then e else 0))) end. }
    eapply loop_step.
    { cbv beta iota. change (4 + 1 + 1) with 6. change (4 + 1) with 5.
      match goal with |- context [emit_down _ 14 4 (?p ++ ?q, _)] =>
        exact (ham_emit mbe_hamming1511 fr 5 r5 h5 f5 p q eq_refl ltac:(lia) D5 (proj1 (proj2 F5)) ltac:(rewrite !skipn_length; lia)
        (fun st' e => Ok (st', 0 + e1 + e2 + e3 + f4 + e, if 5 =? 4 then e else f4))) end. }
    eapply loop_step.
    { cbv beta iota. change (4 + 1 + 1) with 6. change (4 + 1) with 5.
      match goal with |- context [emit_down _ 14 4 (?p ++ ?q, _)] =>
        exact (ham_emit mbe_hamming1511 fr 6 r6 h6 f6 p q eq_refl ltac:(lia) D6 (proj1 (proj2 F6)) ltac:(rewrite !skipn_length; lia)
        (fun st' e => Ok (st', 0 + e1 + e2 + e3 + f4 + f5 + e, if 6 =? 4 then e else f4))) end. }
    reflexivity. }
  cbv beta iota. eapply bind_Ok; [reflexivity|]. eapply bind_Ok.
  { apply (emit_next r7 6 0 7 0); try reflexivity; [lia|rewrite !skipn_length; lia]. }
  cbv beta iota. rewrite !skipn_skipn', (skipn_all2 (map Some d)) by (cbn [plus]; lia). rewrite app_nil_r. cbn [app].
  rewrite slice_0, slice_all by lia. rewrite <- !map_app, all_init_some. cbn [bind]. now rewrite <- !app_assoc.
Qed.
