(* Proofs about the AMBE 3600 frame functions (ambe_common.c). *)
From Coq Require Import ZArith List Bool Lia.
From Verif Require Import Res MEcc MFrame SpecEcc SpecFrame PBase PEcc PHam PLoop.
Import ListNotations.
Local Open Scope Z_scope.

(* rewrite the first step of a bind with an equation that matches up to conversion *)
Ltac bstep H := match goal with |- bind ?X ?f = ?R =>
  match type of H with _ = ?Y =>
  let E := fresh in assert (E : X = Y) by exact H; rewrite E; clear E; cbn [bind] end end.

Lemma skipn_app_len : forall {A} n (a b : list A), length a = n -> skipn n (a ++ b) = b.
Proof. intros A n a b <-. rewrite skipn_app, Nat.sub_diag, skipn_all. reflexivity. Qed.
Lemma firstn_app_len : forall {A} n (a b : list A), length a = n -> firstn n (a ++ b) = a.
Proof. intros A n a b <-. rewrite firstn_app, Nat.sub_diag, firstn_all. cbn [firstn]. apply app_nil_r. Qed.

Lemma is_bits_len : forall n l, is_bits n l -> length l = n.
Proof. intros n l [H _]. exact H. Qed.

(* ---- what golay2312 does, in the form needed here ---- *)
Lemma golay_dec : forall l, is_bits 23 l -> exists cw e,
  golay_word cw /\ hdist l cw <= 3 /\ (forall cw', golay_word cw' -> hdist l cw' <= 3 -> cw' = cw)
  /\ mbe_golay2312 l = Ok (firstn 11 l ++ skipn 11 cw, e)
  /\ is_bits 23 (firstn 11 l ++ skipn 11 cw)
  /\ e = hdist (skipn 11 l) (skipn 11 cw) /\ 0 <= e <= 3.
Proof.
  intros l Hl. destruct (golay2312_full l Hl) as (cw & out & e & Hcw & Hd & Hu & Hdec & Hob & Hs & Hf & He & Hr & _).
  assert (E : out = firstn 11 l ++ skipn 11 cw) by (rewrite <- Hf, <- Hs; symmetry; apply firstn_skipn).
  exists cw, e. rewrite <- E. repeat (split; [assumption|]). split; [|exact Hr].
  rewrite He, (hdist_split 11) by (rewrite (is_bits_len _ _ Hl), (is_bits_len _ _ Hob); reflexivity).
  rewrite Hf, Hs, hdist_refl. lia.
Qed.

Lemma hdist_skipn_le : forall k a b, length a = length b -> hdist (skipn k a) (skipn k b) <= hdist a b.
Proof. intros k a b H. rewrite (hdist_split k a b H). pose proof (hdist_nonneg (firstn k a) (firstn k b)). lia. Qed.

(* ---- counting ones ---- *)
Fixpoint total (l : list Z) : Z := match l with [] => 0 | x :: l' => x + total l' end.

Lemma ones_loop : forall l pre s, Forall is_bit l ->
  loop (length l) (Z.of_nat (length pre)) 1 (fun j ones => c <- rd (pre ++ l) j ;; Ok (ones + Z.land c 1)) s
  = Ok (s + total l).
Proof.
  induction l as [|x l IH]; intros pre s Hb; [cbn; f_equal; lia|].
  inversion Hb as [|? ? Hx Hl]; subst. cbn [length loop total]. rewrite rd_app. cbn [bind].
  replace (Z.of_nat (length pre) + 1) with (Z.of_nat (length (pre ++ [x]))) by (rewrite app_length; cbn [length]; lia).
  rewrite (snoc_app pre x l), IH by exact Hl. f_equal. destruct Hx as [-> | ->]; cbn [Z.land Pos.land]; lia.
Qed.

Definition flip (b : Z) : Z := 1 - b.

(* C0 correction of row r0 : bit 0 is p, bits 1..23 are l *)
Lemma ambe_c0_closed : forall p l r1 r2 r3, is_bit p -> is_bits 23 l -> exists cw e,
  golay_word cw /\ hdist l cw <= 3 /\ (forall cw', golay_word cw' -> hdist l cw' <= 3 -> cw' = cw)
  /\ e = hdist (skipn 11 l) (skipn 11 cw) /\ 0 <= e <= 3
  /\ is_bits 23 (firstn 11 l ++ skipn 11 cw)
  /\ mbe_eccAmbe3600C0_common [p :: l; r1; r2; r3]
     = (if e =? 0 then
          if Z.odd (p + total l) then Ok ([flip p :: l; r1; r2; r3], 1) else Ok ([p :: l; r1; r2; r3], 0)
        else Ok ([p :: firstn 11 l ++ skipn 11 cw; r1; r2; r3], e)).
Proof.
  intros p l r1 r2 r3 Hp Hl. destruct (golay_dec l Hl) as (cw & e & Hcw & Hd & Hu & Hdec & Hob & He & Hr).
  exists cw, e. split; [exact Hcw|]. split; [exact Hd|]. split; [exact Hu|]. split; [exact He|]. split; [exact Hr|].
  split; [exact Hob|].
  pose proof (is_bits_len _ _ Hl) as Ll. pose proof (is_bits_len _ _ Hob) as Lo.
  unfold mbe_eccAmbe3600C0_common.
  change (copy_in [p :: l; r1; r2; r3] 0 1 23) with (copy_in [p :: l; r1; r2; r3] 0 (Z.of_nat 1) (Z.of_nat 23)).
  rewrite (copy_in_spec _ _ (p :: l) 1 23) by (reflexivity || (cbn [length]; lia)). cbn [bind].
  replace (slice 1 23 (p :: l)) with l by (unfold slice; cbn [skipn]; symmetry; apply firstn_all2; lia).
  rewrite Hdec. cbn [bind].
  remember (firstn 11 l ++ skipn 11 cw) as out eqn:Eout.
  pose proof (copy_out_spec [] (p :: l) [r1; r2; r3] 0 1 23 out eq_refl ltac:(cbn [length]; lia) ltac:(lia)) as HC.
  cbn [app] in HC. change (Z.of_nat 1) with 1 in HC. change (Z.of_nat 23) with 23 in HC. rewrite HC. clear HC. cbn [bind].
  assert (Esp : splice 1 (firstn 23 out) (p :: l) = p :: out).
  { unfold splice. rewrite (firstn_all2 out) by lia. cbn [firstn app]. rewrite Lo. cbn [plus].
    rewrite skipn_all2 by (cbn [length]; lia). now rewrite app_nil_r. }
  rewrite Esp. destruct (e =? 0) eqn:E0.
  - apply Z.eqb_eq in E0. assert (Eo : out = l).
    { rewrite Eout. rewrite <- (firstn_skipn 11 l) at 2. f_equal. symmetry. apply hdist_0_eq; [|lia].
      rewrite !skipn_length, Ll. destruct Hcw as [[Lc _] _]. now rewrite Lc. }
    rewrite Eo. unfold for_up. replace (Z.to_nat (24 - 0)) with (length (p :: l)) by (cbn [length]; lia).
    change (fun j ones => c <- rd2 [p :: l; r1; r2; r3] 0 j;; Ok (ones + Z.land c 1))
      with (fun j ones => c <- rd ([] ++ p :: l) j;; Ok (ones + Z.land c 1)).
    change 0 with (Z.of_nat (length (@nil Z))) at 1.
    rewrite ones_loop by (constructor; [exact Hp|apply Hl]). cbn [bind total].
    change (0 + (p + total l)) with (p + total l).
    replace (negb (Z.land (p + total l) 1 =? 0)) with (Z.odd (p + total l)).
    2:{ change 1 with (Z.ones 1). rewrite Z.land_ones by lia. change (2 ^ 1) with 2. rewrite Zmod_odd.
        destruct (Z.odd (p + total l)); reflexivity. }
    destruct (Z.odd (p + total l)).
    + change (rd2 [p :: l; r1; r2; r3] 0 0) with (@Ok Z p). cbn [bind].
      change (wr2 [p :: l; r1; r2; r3] 0 0 (to_char (Z.lxor p 1))) with (Ok [to_char (Z.lxor p 1) :: l; r1; r2; r3]).
      cbn [bind]. do 2 f_equal. do 2 f_equal. destruct Hp as [-> | ->]; reflexivity.
    + now rewrite E0.
  - reflexivity.
Qed.

(* ---- demodulation ---- *)

Lemma seed_loop : forall fr r0 n lo, rd fr 0 = Ok r0 -> Forall is_bit r0 -> (lo + n = length r0)%nat -> (n <= 16)%nat ->
  forall k, (k <= n)%nat ->
  loop k (Z.of_nat (lo + k) - 1) (-1) (fun i foo =>
      c <- rd2 fr 0 i ;; Ok (to_u16 (Z.lor (to_u16 (Z.shiftl foo 1)) c))) (val (skipn (lo + k) r0)) = Ok (val (skipn lo r0)).
Proof.
  intros fr r0 n lo Hr Hb Hlen Hn. induction k as [|k IH]; intros Hk; [cbn [loop]; do 3 f_equal; lia|].
  cbn [loop]. unfold rd2 at 1. rewrite Hr. cbn [bind].
  rewrite (rd_nth' 0 r0 _ (lo + k)) by lia. cbn [bind].
  assert (Hbit : is_bit (nth (lo + k) r0 0)) by (rewrite Forall_forall in Hb; apply Hb, nth_In; lia).
  pose proof (val_range (skipn (lo + S k) r0) (Forall_skipn _ _ _ Hb)) as Hv. rewrite skipn_length in Hv.
  assert (Hv2 : 0 <= val (skipn (lo + S k) r0) < 2 ^ 15).
  { split; [lia|]. eapply Z.lt_le_trans; [apply Hv|]. apply Z.pow_le_mono_r; lia. }
  assert (E : val (skipn (lo + k) r0) = nth (lo + k) r0 0 + 2 * val (skipn (lo + S k) r0)).
  { rewrite (skipn_nth_cons 0 r0 (lo + k)) by lia. replace (S (lo + k)) with (lo + S k)%nat by lia. reflexivity. }
  replace (to_u16 (Z.lor (to_u16 (Z.shiftl (val (skipn (lo + S k) r0)) 1)) (nth (lo + k) r0 0)))
    with (val (skipn (lo + k) r0)).
  - replace (Z.of_nat (lo + S k) - 1 + -1) with (Z.of_nat (lo + k) - 1) by lia. apply IH. lia.
  - rewrite E. set (v := val (skipn (lo + S k) r0)) in *. change (2 ^ 15) with 32768 in Hv2.
    rewrite Z.shiftl_mul_pow2 by lia. change (2 ^ 1) with 2. unfold to_u16 at 2. rewrite Z.mod_small by lia.
    assert (El : Z.lor (v * 2) (nth (lo + k) r0 0) = nth (lo + k) r0 0 + 2 * v).
    { destruct Hbit as [-> | ->].
      - rewrite Z.lor_0_r. lia.
      - rewrite <- Z.lxor_lor.
        + change (v * 2) with (v * 2 ^ 1). rewrite <- Z.shiftl_mul_pow2 by lia. rewrite lxor_disjoint_add by lia.
          rewrite Z.shiftl_mul_pow2 by lia. lia.
        + change 1 with (Z.ones 1). rewrite Z.land_ones by lia. change (2 ^ 1) with 2. apply Z.mod_mul. lia. }
    rewrite El. unfold to_u16. rewrite Z.mod_small; [reflexivity|]. destruct Hbit as [H | H]; rewrite H; lia.
Qed.

Lemma div32768_quot : forall x, 0 <= x < 65536 -> to_u16 (Z.quot x 32768) = x / 32768.
Proof.
  intros x Hx. rewrite Z.quot_div_nonneg by lia. unfold to_u16. apply Z.mod_small.
  split; [apply Z.div_pos; lia|]. apply Z.div_lt_upper_bound; lia.
Qed.

Lemma seed_range : forall n k r, row n n r -> (n - k <= 12)%nat -> 0 <= val (skipn k r) < 4096.
Proof.
  intros n k r [L B] H. rewrite firstn_all2 in B by lia.
  pose proof (val_range (skipn k r) (Forall_skipn _ _ _ B)) as Hv. rewrite skipn_length, L in Hv.
  split; [lia|]. change 4096 with (2 ^ 12). eapply Z.lt_le_trans; [apply Hv|]. apply Z.pow_le_mono_r; lia.
Qed.

Lemma ambe_seed : forall r0 r1 r2 r3, length r0 = 24%nat -> Forall is_bit r0 ->
  for_down 23 12 (fun i foo =>
      c <- rd2 [r0; r1; r2; r3] 0 i ;; Ok (to_u16 (Z.lor (to_u16 (Z.shiftl foo 1)) c))) 0 = Ok (val (skipn 12 r0)).
Proof.
  intros r0 r1 r2 r3 L0 B0.
  pose proof (seed_loop [r0; r1; r2; r3] r0 12 12 eq_refl B0 ltac:(lia) ltac:(lia) 12 ltac:(lia)) as HS.
  rewrite skipn_all2 in HS by lia. exact HS.
Qed.

Lemma ambe_key : forall s, 0 <= s < 4096 -> exists pr, pr_fill s 24 = Ok pr
  /\ for_up 1 24 (fun i pr => x <- rdi pr i ;; wr pr i (Some (to_u16 (Z.quot x 32768)))) pr
     = Ok ([Some (16 * s)] ++ map Some (keybits s 23) ++ repeat None 91).
Proof.
  intros s Hs. exact (pr_key (fun x => to_u16 (Z.quot x 32768)) s 23 Hs ltac:(lia) div32768_quot).
Qed.

Lemma ambe_demod_row : forall r0 r1 r2 r3 key s, length key = 23%nat -> length r1 = 24%nat ->
  Forall is_bit (firstn 23 r1) -> Forall is_bit key ->
  demod_row ([Some s] ++ map Some key ++ repeat None 91) 1 22 ([r0; r1; r2; r3], 1)
  = Ok ([r0; scramble key r1; r2; r3], 24).
Proof.
  intros r0 r1 r2 r3 key s Lk L1 B1 Bk.
  pose proof (demod_row_spec [r0] r1 [r2; r3] 1 22 [Some s] key (repeat None 91) 1
    eq_refl ltac:(rewrite Lk; reflexivity) eq_refl Bk ltac:(lia) ltac:(rewrite Lk; exact B1)) as HD.
  rewrite Lk in HD. exact HD.
Qed.

Lemma ambe_demod_closed : forall fr, ambe_frame fr ->
  mbe_demodulateAmbe3600Data_common fr = Ok (ambe_scramble fr).
Proof.
  intros fr (r0 & r1 & r2 & r3 & -> & R0 & R1 & R2 & R3).
  pose proof (seed_range 24 12 r0 R0 ltac:(lia)) as Hs.
  destruct R0 as [L0 B0]. rewrite firstn_all2 in B0 by lia. destruct R1 as [L1 B1].
  unfold mbe_demodulateAmbe3600Data_common. rewrite ambe_seed by assumption. cbn [bind].
  destruct (ambe_key _ Hs) as (pr & E1 & E2). rewrite E1. cbn [bind]. rewrite E2. cbn [bind].
  rewrite ambe_demod_row by (assumption || apply keybits_length || apply keybits_bits).
  reflexivity.
Qed.

Lemma ambe_scramble_frame : forall fr, ambe_frame fr -> ambe_frame (ambe_scramble fr).
Proof.
  intros fr (r0 & r1 & r2 & r3 & -> & R0 & R1 & R2 & R3). cbn [ambe_scramble].
  eexists _, _, _, _. split; [reflexivity|]. split; [exact R0|]. split; [|split; assumption].
  assert (Lk : length (keybits (val (skipn 12 r0)) 23) = 23%nat) by apply keybits_length.
  rewrite <- Lk at 1. apply scramble_row; [rewrite Lk; exact R1|lia|apply keybits_bits].
Qed.

Lemma ambe_scramble_involutive : forall fr, ambe_frame fr -> ambe_scramble (ambe_scramble fr) = fr.
Proof.
  intros fr (r0 & r1 & r2 & r3 & -> & R0 & [L1 B1] & R2 & R3). cbn [ambe_scramble].
  rewrite scramble_involutive by (rewrite keybits_length; lia). reflexivity.
Qed.

(* ---- data ---- *)

Lemma map_some_split : forall {A} n (l : list A), (n <= length l)%nat ->
  map Some l = map Some (firstn n l) ++ map Some (skipn n l) /\ length (map Some (firstn n l)) = n
  /\ length (skipn n l) = (length l - n)%nat.
Proof.
  intros A n l H. rewrite <- map_app, firstn_skipn, map_length, firstn_length, skipn_length. split; [reflexivity|lia].
Qed.

(* emit_down onto a list of cells: the first p stay, the next n are written *)
Lemma emit_next : forall (src : list Z) hi lo n l pre rest p,
  lo = Z.of_nat l -> hi = Z.of_nat (l + n) - 1 -> p = Z.of_nat (length pre) ->
  (l + n <= length src)%nat -> (n <= length rest)%nat ->
  emit_down src hi lo (pre ++ rest, p)
  = Ok ((pre ++ map Some (rev (slice l n src))) ++ skipn n rest, Z.of_nat (length (pre ++ map Some (rev (slice l n src))))).
Proof.
  intros src hi lo n l pre rest p Hlo Hhi Hp Hs Hr. rewrite <- (firstn_skipn n rest) at 1.
  rewrite (emit_down_spec src hi lo n l pre (firstn n rest) (skipn n rest) p) by (try assumption; rewrite firstn_length; lia).
  rewrite <- app_assoc. do 2 f_equal. rewrite app_length, map_length, rev_length, slice_length by exact Hs. lia.
Qed.

Lemma slice_is_bits : forall w m off n r, row w m r -> (off + n <= m)%nat -> (m <= w)%nat -> is_bits n (slice off n r).
Proof.
  intros w m off n r [L B] H1 H2. split; [apply slice_length; lia|].
  unfold slice. assert (E : firstn n (skipn off r) = firstn n (skipn off (firstn m r))).
  { rewrite <- (firstn_skipn m r) at 1. rewrite skipn_app, firstn_app.
    rewrite (skipn_length off (firstn m r)), firstn_length.
    replace (n - (Nat.min m (length r) - off))%nat with 0%nat by lia. cbn [firstn]. apply app_nil_r. }
  rewrite E. now apply Forall_firstn, Forall_skipn.
Qed.

Lemma slice_0 : forall {A} n (l : list A), slice 0 n l = firstn n l.
Proof. reflexivity. Qed.

Lemma slice_all : forall {A} off n (l : list A), (length l <= off + n)%nat -> slice off n l = skipn off l.
Proof. intros A off n l H. unfold slice. apply firstn_all2. rewrite skipn_length. lia. Qed.

Lemma ambe_data_closed : forall r0 r1 r2 r3 d, row 24 24 r0 -> row 24 23 r1 -> row 24 11 r2 -> row 24 14 r3 ->
  length d = 49%nat -> exists cw e,
  golay_word cw /\ hdist (firstn 23 r1) cw <= 3
  /\ (forall cw', golay_word cw' -> hdist (firstn 23 r1) cw' <= 3 -> cw' = cw)
  /\ e = hdist (slice 11 12 r1) (skipn 11 cw) /\ 0 <= e <= 3
  /\ mbe_eccAmbe3600Data_common [r0; r1; r2; r3] d
     = Ok (rev (skipn 12 r0) ++ rev (skipn 11 cw) ++ rev (firstn 11 r2) ++ rev (firstn 14 r3), e).
Proof.
  intros r0 r1 r2 r3 d R0 R1 R2 R3 Ld.
  pose proof (slice_is_bits 24 23 0 23 r1 R1 ltac:(lia) ltac:(lia)) as Hg. rewrite slice_0 in Hg.
  destruct (golay_dec _ Hg) as (cw & e & Hcw & Hd & Hu & Hdec & Hob & He & Hr).
  exists cw, e. split; [exact Hcw|]. split; [exact Hd|]. split; [exact Hu|]. split; [|split; [exact Hr|]].
  { rewrite He. f_equal. unfold slice. rewrite skipn_firstn_comm. reflexivity. }
  pose proof (is_bits_len _ _ Hob) as Lo. destruct R0 as [L0 _], R1 as [L1 _], R2 as [L2 _], R3 as [L3 _].
  pose proof (is_bits_len _ _ (proj1 Hcw)) as Lc.
  unfold mbe_eccAmbe3600Data_common.
  change (rd [r0; r1; r2; r3] 0) with (Ok r0). change (rd [r0; r1; r2; r3] 2) with (Ok r2).
  change (rd [r0; r1; r2; r3] 3) with (Ok r3). cbn [bind].
  change (map Some d) with ([] ++ map Some d) at 1.
  rewrite (emit_next r0 23 12 12 12 [] (map Some d) 0) by (reflexivity || (rewrite ?map_length; cbn [length]; lia)).
  cbn [bind].
  change (copy_in [r0; r1; r2; r3] 1 0 23) with (copy_in [r0; r1; r2; r3] 1 (Z.of_nat 0) (Z.of_nat 23)).
  rewrite (copy_in_spec _ _ r1 0 23) by (reflexivity || lia). rewrite slice_0. cbn [bind].
  rewrite Hdec. cbn [bind].
  remember (firstn 11 (firstn 23 r1) ++ skipn 11 cw) as gout eqn:Eg.
  rewrite (emit_next gout 22 11 12 11) by (reflexivity || (rewrite ?skipn_length, ?map_length; lia)).
  cbn [bind].
  rewrite (emit_next r2 10 0 11 0) by (reflexivity || (rewrite ?skipn_length, ?map_length; lia)).
  cbn [bind].
  rewrite (emit_next r3 13 0 14 0) by (reflexivity || (rewrite ?skipn_length, ?map_length; lia)).
  cbn [bind]. rewrite skipn_all2 by (rewrite ?skipn_length, ?map_length; lia). rewrite app_nil_r. cbn [app].
  rewrite <- !map_app, all_init_some. cbn [bind]. do 2 f_equal.
  rewrite <- !app_assoc, !slice_0. f_equal; [now rewrite slice_all by lia|]. f_equal.
  rewrite slice_all by lia. f_equal. rewrite Eg, skipn_app.
  assert (L11 : length (firstn 11 (firstn 23 r1)) = 11%nat) by (rewrite !firstn_length; lia).
  rewrite L11, Nat.sub_diag, skipn_all2 by lia. reflexivity.
Qed.

(* ---- property-level lemmas ---- *)

Lemma row_full : forall n r, row n n r <-> is_bits n r.
Proof.
  intros n r. split; intros [L B]; split; try exact L.
  - now rewrite firstn_all2 in B by lia.
  - now rewrite firstn_all2 by lia.
Qed.

Lemma row24_split : forall r, row 24 24 r -> exists p l, r = p :: l /\ is_bit p /\ is_bits 23 l.
Proof.
  intros r H. apply row_full in H. destruct H as [L B]. destruct r as [|p l]; [discriminate L|].
  inversion B; subst. exists p, l. split; [reflexivity|]. split; [assumption|]. split; [now injection L|assumption].
Qed.

Lemma flip_bit : forall p, is_bit p -> is_bit (flip p).
Proof. intros p [-> | ->]; [right|left]; reflexivity. Qed.

Lemma hdist_flip : forall p l, is_bit p -> hdist (p :: l) (flip p :: l) = 1.
Proof. intros p l Hp. cbn [hdist]. rewrite hdist_refl. destruct Hp as [-> | ->]; reflexivity. Qed.

Lemma hdist_data_eq : forall l cw, is_bits 23 l -> golay_word cw -> hdist (skipn 11 l) (skipn 11 cw) = 0 ->
  skipn 11 l = skipn 11 cw.
Proof.
  intros l cw [Ll _] [[Lc _] _] H. apply hdist_0_eq; [|exact H]. now rewrite !skipn_length, Ll, Lc.
Qed.

(* everything about C0 correction at once *)
Lemma ambe_c0_full : forall r0 r1 r2 r3, row 24 24 r0 -> exists r0' errs cw,
  mbe_eccAmbe3600C0_common [r0; r1; r2; r3] = Ok ([r0'; r1; r2; r3], errs)
  /\ row 24 24 r0' /\ golay_word cw /\ hdist (skipn 1 r0) cw <= 3
  /\ (forall cw', golay_word cw' -> hdist (skipn 1 r0) cw' <= 3 -> cw' = cw)
  /\ skipn 12 r0' = skipn 11 cw /\ slice 1 11 r0' = slice 1 11 r0
  /\ errs = hdist r0 r0' /\ 0 <= errs <= 3
  /\ (hdist (skipn 12 r0) (skipn 11 cw) > 0 -> errs = hdist (skipn 12 r0) (skipn 11 cw))
  /\ (hdist (skipn 12 r0) (skipn 11 cw) = 0 -> errs <= 1).
Proof.
  intros r0 r1 r2 r3 R0. destruct (row24_split r0 R0) as (p & l & -> & Hp & Hl).
  destruct (ambe_c0_closed p l r1 r2 r3 Hp Hl) as (cw & e & Hcw & Hd & Hu & He & Hr & Hob & Heq).
  change (skipn 1 (p :: l)) with l. change (skipn 12 (p :: l)) with (skipn 11 l).
  destruct (e =? 0) eqn:E0.
  - apply Z.eqb_eq in E0. rewrite E0 in He. symmetry in He. pose proof He as He'. apply (hdist_data_eq l cw Hl Hcw) in He.
    destruct (Z.odd (p + total l)).
    + exists (flip p :: l), 1, cw. split; [exact Heq|]. split.
      { apply row_full. split; [cbn [length]; now rewrite (is_bits_len _ _ Hl)|]. constructor; [now apply flip_bit|apply Hl]. }
      split; [exact Hcw|]. split; [exact Hd|]. split; [exact Hu|]. split; [exact He|]. split; [reflexivity|].
      split; [now rewrite hdist_flip|]. rewrite He'. lia.
    + exists (p :: l), 0, cw. split; [exact Heq|]. split; [exact R0|].
      split; [exact Hcw|]. split; [exact Hd|]. split; [exact Hu|]. split; [exact He|]. split; [reflexivity|].
      split; [now rewrite hdist_refl|]. rewrite He'. lia.
  - pose proof (is_bits_len _ _ Hl) as Ll. pose proof (is_bits_len _ _ Hob) as Lo.
    assert (L11 : length (firstn 11 l) = 11%nat) by (rewrite firstn_length; lia).
    exists (p :: firstn 11 l ++ skipn 11 cw), e, cw. split; [exact Heq|]. split.
    { apply row_full. split; [cbn [length]; now rewrite Lo|]. constructor; [exact Hp|apply Hob]. }
    split; [exact Hcw|]. split; [exact Hd|]. split; [exact Hu|]. split.
    { exact (skipn_app_len 11 (firstn 11 l) (skipn 11 cw) L11). }
    split.
    { exact (firstn_app_len 11 (firstn 11 l) (skipn 11 cw) L11). }
    split.
    { cbn [hdist]. rewrite Z.eqb_refl. rewrite (hdist_split 11 l) by lia.
      rewrite firstn_app_len, skipn_app_len, hdist_refl by exact L11. exact He. }
    apply Z.eqb_neq in E0. rewrite <- He. lia.
Qed.

Lemma ambe_c0_parity_refuted : exists r0 r0' errs, is_bits 24 r0
  /\ mbe_eccAmbe3600C0_common [r0; repeat 0 24; repeat 0 24; repeat 0 24]
     = Ok ([r0'; repeat 0 24; repeat 0 24; repeat 0 24], errs)
  /\ nth 0 r0' 0 <> nth 0 r0 0 /\ ~ golay_word (skipn 1 r0) /\ ~ golay_word (skipn 1 r0')
  (* the transmitted all-zero word had one check bit flipped; the correct extra bit is flipped too *)
  /\ hdist r0 (repeat 0 24) = 1 /\ hdist r0' (repeat 0 24) = 2.
Proof.
  exists (0 :: 1 :: repeat 0 22), (1 :: 1 :: repeat 0 22), 1.
  split; [apply is_bits_check; reflexivity|]. split; [vm_compute; reflexivity|]. split; [discriminate|].
  assert (N : ~ golay_word (1 :: repeat 0 22)).
  { intros [_ Hc]. destruct (codeword_synd _ Hc) as [H _]. vm_compute in H. discriminate H. }
  split; [exact N|]. split; [exact N|]. split; reflexivity.
Qed.

Lemma row_impl : forall w n m r, row w n r -> (m <= n)%nat -> row w m r.
Proof.
  intros w n m r [L B] H. split; [exact L|]. replace (firstn m r) with (firstn m (firstn n r)).
  - now apply Forall_firstn.
  - rewrite firstn_firstn. f_equal. lia.
Qed.

(* frame path: bounds and the data bits *)
Lemma ambe_frame_full : forall fr d0, ambe_frame fr -> length d0 = 49%nat ->
  exists r0 r1 r2 r3 fr' errs errs2 d cw0 c1 cw1, fr = [r0; r1; r2; r3]
  /\ ambe_frame_ecc fr d0 = Ok (fr', errs, errs2, d)
  /\ golay_word cw0 /\ hdist (skipn 1 r0) cw0 <= 3
  /\ (forall cw', golay_word cw' -> hdist (skipn 1 r0) cw' <= 3 -> cw' = cw0)
  /\ c1 = scramble (keybits (val (skipn 11 cw0)) 23) (firstn 23 r1)
  /\ golay_word cw1 /\ hdist c1 cw1 <= 3
  /\ (forall cw', golay_word cw' -> hdist c1 cw' <= 3 -> cw' = cw1)
  /\ d = rev (skipn 11 cw0) ++ rev (skipn 11 cw1) ++ rev (firstn 11 r2) ++ rev (firstn 14 r3)
  /\ 0 <= errs <= 3 /\ (hdist (skipn 12 r0) (skipn 11 cw0) > 0 -> errs = hdist (skipn 12 r0) (skipn 11 cw0))
  /\ (hdist (skipn 12 r0) (skipn 11 cw0) = 0 -> errs <= 1)
  /\ errs2 = errs + hdist (skipn 11 c1) (skipn 11 cw1) /\ 0 <= errs2 - errs <= 3.
Proof.
  intros fr d0 (r0 & r1 & r2 & r3 & -> & R0 & R1 & R2 & R3) Ld.
  destruct (ambe_c0_full r0 r1 r2 r3 R0) as (r0' & errs & cw0 & E0 & R0' & Hc0 & Hd0 & Hu0 & Hs0 & _ & _ & He0 & Hea & Heb).
  assert (HF : ambe_frame [r0'; r1; r2; r3]) by (exists r0', r1, r2, r3; auto).
  pose proof (ambe_demod_closed _ HF) as E1. pose proof (ambe_scramble_frame _ HF) as HF2.
  cbn [ambe_scramble] in E1, HF2. rewrite Hs0 in E1, HF2.
  set (key := keybits (val (skipn 11 cw0)) 23) in *.
  assert (Lk : length key = 23%nat) by apply keybits_length.
  assert (R1' : row 24 23 (scramble key r1)).
  { rewrite <- Lk at 1. apply scramble_row; [rewrite Lk; exact R1|lia|apply keybits_bits]. }
  destruct (ambe_data_closed r0' (scramble key r1) r2 r3 d0 R0' R1' R2 R3 Ld) as (cw1 & e & Hc1 & Hd1 & Hu1 & He1 & Hr1 & E2).
  assert (Lr1 : (length key <= length r1)%nat) by (destruct R1; lia).
  assert (Ec1 : firstn 23 (scramble key r1) = scramble key (firstn 23 r1)).
  { destruct (scramble_low key r1 Lr1) as [H _]. rewrite Lk in H. rewrite H. unfold scramble. rewrite Lk.
    rewrite firstn_firstn. change (Nat.min 23 23) with 23%nat.
    rewrite (skipn_all2 (firstn 23 r1)) by (rewrite firstn_length; lia). now rewrite app_nil_r. }
  exists r0, r1, r2, r3, [r0'; scramble key r1; r2; r3], errs, (errs + e),
    (rev (skipn 11 cw0) ++ rev (skipn 11 cw1) ++ rev (firstn 11 r2) ++ rev (firstn 14 r3)),
    cw0, (scramble key (firstn 23 r1)), cw1.
  split; [reflexivity|]. split.
  { unfold ambe_frame_ecc. rewrite E0. cbn [bind]. rewrite E1. cbn [bind]. rewrite E2. cbn [bind]. now rewrite Hs0. }
  rewrite Ec1 in Hd1, Hu1.
  split; [exact Hc0|]. split; [exact Hd0|]. split; [exact Hu0|]. split; [reflexivity|]. split; [exact Hc1|].
  split; [exact Hd1|]. split; [exact Hu1|]. split; [reflexivity|]. split; [exact He0|]. split; [exact Hea|].
  split; [exact Heb|]. split; [|lia].
  f_equal. rewrite He1. f_equal. rewrite <- Ec1. unfold slice. now rewrite skipn_firstn_comm.
Qed.

Lemma hdist_scramble : forall key a b, length a = length key -> length b = length key ->
  Forall is_bit a -> Forall is_bit b -> Forall is_bit key ->
  forall k, hdist (skipn k (scramble key a)) (skipn k (scramble key b)) = hdist (skipn k a) (skipn k b).
Proof.
  intros key a b La Lb Ba Bb Bk k. unfold scramble.
  rewrite (firstn_all2 a), (firstn_all2 b), (skipn_all2 a), (skipn_all2 b), !app_nil_r by lia.
  assert (E : forall k a' key', length a' = length key' -> skipn k (xor_bits a' key') = xor_bits (skipn k a') (skipn k key')).
  { clear. induction k as [|k IH]; intros a' key' L; [reflexivity|].
    destruct a' as [|x a'], key' as [|y key']; try discriminate L; [reflexivity|]. cbn [xor_bits skipn]. apply IH. now injection L. }
  rewrite !E by (rewrite rev_length; lia).
  apply hdist_xor_bits; try (apply Forall_skipn; (assumption || (apply Forall_rev; assumption)));
    rewrite !skipn_length, rev_length; lia.
Qed.

Lemma slice_4 : forall (d : list Z), length d = 49%nat ->
  slice 0 12 d ++ slice 12 12 d ++ slice 24 11 d ++ slice 35 14 d = d.
Proof. intros d H. do 49 (destruct d as [|? d]; [discriminate H|]). destruct d; [reflexivity|discriminate H]. Qed.

Lemma ambe_recovers : forall d sent got d0, length d = 49%nat -> ambe_encoded d sent -> ambe_frame got ->
  ambe_channel sent got -> length d0 = 49%nat ->
  exists fr' errs errs2, ambe_frame_ecc got d0 = Ok (fr', errs, errs2, d)
  /\ 0 <= errs <= 3 /\ (ambe_c0_flips sent got > 0 -> errs = ambe_c0_flips sent got)
  /\ (ambe_c0_flips sent got = 0 -> errs <= 1)
  /\ errs2 = errs + ambe_c1_flips sent got.
Proof.
  intros d sent got d0 Ld (s0 & s1 & s2 & s3 & c1 & -> & Hg0 & Hd0 & Hg1 & Hd1 & Hs1 & Hs2 & Hs3) HF
    (t0 & t1 & t2 & t3 & r0 & r1 & r2 & r3 & Es & -> & Hc0 & Hc1 & Hc2 & Hc3) L0.
  injection Es as <- <- <- <-.
  destruct (ambe_frame_full _ d0 HF L0) as (q0 & q1 & q2 & q3 & fr' & errs & errs2 & d' & cw0 & c1' & cw1 & Eq & E & Hw0 & Hn0 & Hu0 &
    Ec1 & Hw1 & Hn1 & Hu1 & Ed & He & Hea & Heb & He2 & Her).
  injection Eq as <- <- <- <-.
  assert (Ew0 : skipn 1 s0 = cw0) by (apply Hu0; assumption). subst cw0.
  assert (Es12 : skipn 11 (skipn 1 s0) = skipn 12 s0) by apply skipn_skipn'.
  rewrite Es12 in *. set (key := keybits (val (skipn 12 s0)) 23) in *.
  assert (Lk : length key = 23%nat) by apply keybits_length.
  destruct HF as (? & ? & ? & ? & Eq & _ & R1 & _). injection Eq as <- <- <- <-.
  assert (Bk : Forall is_bit key) by apply keybits_bits.
  assert (L1 : length (firstn 23 r1) = 23%nat) by (rewrite firstn_length; destruct R1; lia).
  destruct Hg1 as [[Lc1 Bc1] Hcw1].
  assert (Eun : scramble key (firstn 23 s1) = c1) by (rewrite Hs1; apply scramble_involutive; lia).
  assert (Ls1 : length (firstn 23 s1) = 23%nat) by (rewrite Hs1, scramble_length; lia).
  assert (Bs1 : Forall is_bit (firstn 23 s1)).
  { rewrite Hs1. unfold scramble. rewrite (firstn_all2 c1), (skipn_all2 c1), app_nil_r by lia.
    apply xor_bits_bits; [exact Bc1|now apply Forall_rev]. }
  assert (B1 : Forall is_bit (firstn 23 r1)) by apply R1.
  assert (Ew1 : c1 = cw1).
  { apply Hu1; [split; [split|]; assumption|]. rewrite Ec1, <- Eun.
    pose proof (hdist_scramble key (firstn 23 r1) (firstn 23 s1) ltac:(lia) ltac:(lia) B1 Bs1 Bk 0) as H.
    cbn [skipn] in H. rewrite H. exact Hc1. }
  exists fr', errs, errs2. split.
  - rewrite E. do 2 f_equal. rewrite Ed, <- Ew1, Hd0, Hd1, Hc2, Hc3, Hs2, Hs3. now apply slice_4.
  - unfold ambe_c0_flips, ambe_c1_flips. cbn [nth]. split; [exact He|]. split; [exact Hea|]. split; [exact Heb|].
    rewrite He2. f_equal. rewrite Ec1, <- Ew1, <- Eun.
    rewrite (hdist_scramble key (firstn 23 r1) (firstn 23 s1)) by (lia || assumption).
    unfold slice. now rewrite !skipn_firstn_comm.
Qed.

(* every parameter vector has an encoding *)
Lemma golay_encode_ex : forall b, is_bits 12 b -> exists cw, golay_word cw /\ rev (skipn 11 cw) = b.
Proof.
  intros b Hb. assert (Hrb : is_bits 12 (rev b)) by (destruct Hb as [L B]; split; [now rewrite rev_length|now apply Forall_rev]).
  pose proof (is_bits_val_range 12 (rev b) Hrb) as Hv. set (v := val (rev b)) in *. change (2 ^ Z.of_nat 12) with 4096 in Hv.
  destruct (clmul_div golay_poly 11 ltac:(lia) ltac:(vm_compute; split; congruence) ltac:(reflexivity) 12 (Z.shiftl v 11))
    as (q & r & Hq & Hr & E).
  { rewrite Z.shiftl_mul_pow2 by lia. change (2 ^ (Z.of_nat 12 + 11)) with (4096 * 2 ^ 11). lia. }
  assert (Ecw : clmul 12 q golay_poly = Z.shiftl v 11 + r).
  { symmetry in E. apply lxor_eq_swap in E. rewrite Z.lxor_comm in E.
    rewrite <- lxor_disjoint_add by (lia || exact Hr). exact E. }
  assert (Hcr : 0 <= clmul 12 q golay_poly < 2 ^ Z.of_nat 23).
  { rewrite Ecw, Z.shiftl_mul_pow2 by lia. change (2 ^ Z.of_nat 23) with (4096 * 2 ^ 11). lia. }
  exists (bits_of 23 (clmul 12 q golay_poly)). split.
  - split; [apply bits_of_bits|]. rewrite val_bits_of by exact Hcr. exists q. split; [exact Hq|reflexivity].
  - rewrite <- (rev_involutive b). f_equal. change 23%nat with (11 + 12)%nat. rewrite bits_of_skipn, Ecw.
    rewrite Z.shiftl_mul_pow2 by lia. change (2 ^ Z.of_nat 11) with (2 ^ 11). rewrite Z.div_add_l by lia.
    rewrite Z.div_small by exact Hr. rewrite Z.add_0_r. unfold v. apply (val_inj 12); [apply bits_of_bits|exact Hrb|].
    apply val_bits_of. exact (is_bits_val_range 12 (rev b) Hrb).
Qed.

Lemma is_bits_slice : forall m off n d, is_bits m d -> (off + n <= m)%nat -> is_bits n (slice off n d).
Proof. intros m off n d H L. apply (slice_is_bits m m); [now apply row_full|exact L|lia]. Qed.

Lemma is_bits_rev : forall n l, is_bits n l -> is_bits n (rev l).
Proof. intros n l [L B]. split; [now rewrite rev_length|now apply Forall_rev]. Qed.

Lemma ambe_encoding_exists : forall d, is_bits 49 d -> exists fr, ambe_encoded d fr /\ ambe_frame fr.
Proof.
  intros d Hd.
  destruct (golay_encode_ex (slice 0 12 d) (is_bits_slice 49 0 12 d Hd ltac:(lia))) as (c0 & Hc0 & E0).
  destruct (golay_encode_ex (slice 12 12 d) (is_bits_slice 49 12 12 d Hd ltac:(lia))) as (c1 & Hc1 & E1).
  set (key := keybits (val (skipn 11 c0)) 23). assert (Lk : length key = 23%nat) by apply keybits_length.
  pose proof (is_bits_slice 49 24 11 d Hd ltac:(lia)) as H2. pose proof (is_bits_slice 49 35 14 d Hd ltac:(lia)) as H3.
  destruct Hc0 as [Hb0 Hw0]. destruct Hc1 as [Hb1 Hw1].
  assert (L1 : length (scramble key c1) = 23%nat) by (rewrite scramble_length; rewrite (is_bits_len _ _ Hb1); lia).
  assert (B1 : Forall is_bit (scramble key c1)).
  { unfold scramble. rewrite Lk. destruct Hb1 as [Lc Bc]. rewrite firstn_all2, skipn_all2, app_nil_r by lia.
    apply xor_bits_bits; [exact Bc|apply Forall_rev, keybits_bits]. }
  exists [0 :: c0; scramble key c1 ++ [0]; rev (slice 24 11 d) ++ repeat 0 13; rev (slice 35 14 d) ++ repeat 0 10].
  assert (F1 : firstn 23 (scramble key c1 ++ [0]) = scramble key c1) by now apply firstn_app_len.
  assert (F2 : firstn 11 (rev (slice 24 11 d) ++ repeat 0 13) = rev (slice 24 11 d)).
  { apply firstn_app_len. rewrite rev_length. apply H2. }
  assert (F3 : firstn 14 (rev (slice 35 14 d) ++ repeat 0 10) = rev (slice 35 14 d)).
  { apply firstn_app_len. rewrite rev_length. apply H3. }
  split.
  - eexists _, _, _, _, c1. split; [reflexivity|]. split; [split; [exact Hb0|exact Hw0]|]. split; [exact E0|].
    split; [split; assumption|]. split; [exact E1|]. split; [exact F1|].
    split; [rewrite F2; apply rev_involutive|rewrite F3; apply rev_involutive].
  - eexists _, _, _, _. split; [reflexivity|]. split; [|split; [|split]].
    + apply row_full. split; [cbn [length]; now rewrite (is_bits_len _ _ Hb0)|].
      constructor; [now left|apply Hb0].
    + split; [rewrite app_length, L1; reflexivity|]. rewrite F1. exact B1.
    + split; [rewrite app_length, rev_length, (is_bits_len _ _ H2); reflexivity|]. rewrite F2. apply (is_bits_rev _ _ H2).
    + split; [rewrite app_length, rev_length, (is_bits_len _ _ H3); reflexivity|]. rewrite F3. apply (is_bits_rev _ _ H3).
Qed.
