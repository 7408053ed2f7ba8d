(* AMBE parameter decoding: classification, definedness, and what it changes. *)
From Coq Require Import ZArith List Bool Lia.
From Verif Require Import Res F32 TabAmbe2450 TabAmbe2400 MFrame MParms MAdaptive MUnvoiced MSynth MImbe MAmbe
  SpecEcc SpecFrame SpecImbe SpecAmbe PBase PEcc PHam PRun PLoop PArr PFrameImbe PConv PSpeech PDec PImbe.
Import ListNotations.
Local Open Scope Z_scope.

(* ---- bit fields ---- *)
Definition num (l : list Z) : Z := val (rev l).
Lemma val_app : forall a b, val (a ++ b) = val a + 2 ^ Z.of_nat (length a) * val b.
Proof.
  induction a as [|x a IH]; intros b; [change (val ([] ++ b)) with (val b); change (val []) with 0; change (2 ^ Z.of_nat (length (@nil Z))) with 1; lia|].
  cbn [app val length]. rewrite IH, Nat2Z.inj_succ, Z.pow_succ_r by lia. ring.
Qed.
Lemma num_app : forall a b, num (a ++ b) = num a * 2 ^ Z.of_nat (length b) + num b.
Proof. intros a b. unfold num. rewrite rev_app_distr, val_app, rev_length. ring. Qed.
Lemma num_range : forall n l, is_bits n l -> 0 <= num l < 2 ^ Z.of_nat n.
Proof. intros n l [L B]. apply is_bits_val_range. split; [now rewrite rev_length|now apply Forall_rev]. Qed.
Lemma num_inj : forall n a b, is_bits n a -> is_bits n b -> num a = num b -> a = b.
Proof.
  intros n a b [La Ba] [Lb Bb] E. rewrite <- (rev_involutive a), <- (rev_involutive b). f_equal.
  apply (val_inj n); [split; [now rewrite rev_length|now apply Forall_rev]|split; [now rewrite rev_length|now apply Forall_rev]|exact E].
Qed.
Lemma num_single : forall c, num [c] = c.
Proof. intros c. unfold num. cbn. lia. Qed.
Lemma lor_add : forall h l k, 0 <= k -> 0 <= l < 2 ^ k -> Z.lor (h * 2 ^ k) l = h * 2 ^ k + l.
Proof.
  intros h l k Hk Hl. rewrite <- Z.shiftl_mul_pow2 by exact Hk. rewrite <- Z.lxor_lor; [now apply lxor_disjoint_add|].
  apply Z.bits_inj'. intros n Hn. rewrite Z.land_spec, Z.bits_0. destruct (Z.lt_ge_cases n k) as [H|H].
  - now rewrite Z.shiftl_spec_low by lia.
  - rewrite (testbit_high l k n) by lia. apply andb_false_r.
Qed.
Lemma shl_ok : forall x n, 0 <= x -> 0 <= n -> x * 2 ^ n <= 2147483647 -> shl x n = Ok (x * 2 ^ n).
Proof.
  intros x n Hx Hn Hr. unfold shl. destruct (Z.ltb_spec x 0); [lia|]. rewrite Z.shiftl_mul_pow2 by exact Hn. apply to_int_ok.
  assert (0 <= x * 2 ^ n) by (apply Z.mul_nonneg_nonneg; [lia|apply Z.pow_nonneg; lia]). lia.
Qed.
Lemma bit_at : forall n d p, is_bits n d -> 0 <= p < Z.of_nat n -> rd d p = Ok (nth (Z.to_nat p) d 0) /\ is_bit (nth (Z.to_nat p) d 0).
Proof.
  intros n d p [L B] Hp. split; [apply rd_nth; lia|]. rewrite Forall_forall in B. apply B, nth_In. lia.
Qed.
Lemma pick_bits : forall n d ps, is_bits n d -> Forall (fun p => 0 <= p < Z.of_nat n) ps -> is_bits (length ps) (map (fun p => nth (Z.to_nat p) d 0) ps).
Proof.
  intros n d ps Hd H. split; [apply map_length|]. apply Forall_map. eapply Forall_impl; [|exact H]. intros p Hp. now apply (bit_at n).
Qed.
Lemma bits_at_num : forall d ps, bits_at d ps = num (map (fun p => nth (Z.to_nat p) d 0) ps).
Proof. reflexivity. Qed.
Lemma bits_at_range : forall n d ps, is_bits n d -> Forall (fun p => 0 <= p < Z.of_nat n) ps -> 0 <= bits_at d ps < 2 ^ Z.of_nat (length ps).
Proof. intros n d ps Hd H. rewrite bits_at_num. apply num_range. now apply (pick_bits n). Qed.
Lemma bits_msb_ok : forall n d ps, is_bits n d -> Forall (fun p => 0 <= p < Z.of_nat n) ps -> (length ps <= 20)%nat -> bits_msb d ps = Ok (bits_at d ps).
Proof.
  intros n d ps Hd. induction ps as [|p t IH]; intros H HL; [reflexivity|]. inversion H as [|? ? Hp Ht]; subst. cbn [length] in HL.
  cbn [bits_msb]. destruct (bit_at n d p Hd Hp) as [-> Bp]. cbn [bind]. set (c := nth (Z.to_nat p) d 0) in *. rewrite IH by (assumption || lia).
  assert (R : bits_at d (p :: t) = c * 2 ^ Z.of_nat (length t) + bits_at d t).
  { rewrite !bits_at_num. change (map (fun p => nth (Z.to_nat p) d 0) (p :: t)) with ([c] ++ map (fun p => nth (Z.to_nat p) d 0) t).
    rewrite num_app, num_single, map_length. reflexivity. }
  rewrite R. pose proof (bits_at_range n d t Hd Ht) as RT. assert (P : 2 ^ Z.of_nat (length t) <= 2 ^ 20) by (apply Z.pow_le_mono_r; lia). change (2 ^ 20) with 1048576 in P.
  assert (E : (match t with [] => Ok c | _ => shl c (Z.of_nat (length t)) end) = Ok (c * 2 ^ Z.of_nat (length t))).
  { destruct t as [|q t]; [cbn; f_equal; lia|]. apply shl_ok; [destruct Bp; lia|lia|]. destruct Bp as [-> | ->]; lia. }
  rewrite E. cbn [bind]. f_equal. apply lor_add; [lia|exact RT].
Qed.
Lemma slice_snoc : forall (d : list Z) lo k, (lo + k < length d)%nat -> slice lo (S k) d = slice lo k d ++ [nth (lo + k) d 0].
Proof.
  intros d lo k H. apply (list_eq_nth _ _); [rewrite app_length, !slice_length by lia; cbn; lia|]. intros i Hi. rewrite slice_length in Hi by lia.
  rewrite nth_error_slice by lia. destruct (Nat.eq_dec i k) as [->|N].
  - rewrite nth_error_app2 by (rewrite slice_length by lia; lia). rewrite slice_length, Nat.sub_diag by lia. cbn. apply nth_error_nth'. lia.
  - rewrite nth_error_app1 by (rewrite slice_length by lia; lia). rewrite nth_error_slice by lia. reflexivity.
Qed.
Lemma slice_bits : forall n d lo k, is_bits n d -> (lo + k <= n)%nat -> is_bits k (slice lo k d).
Proof.
  intros n d lo k [L B] H. split; [apply slice_length; lia|]. unfold slice. now apply Forall_firstn, Forall_skipn.
Qed.
Lemma load_field_ok : forall n d lo k, is_bits n d -> (lo + k <= n)%nat -> (k <= 20)%nat ->
  load_field d (Z.of_nat lo) (Z.of_nat (lo + k)) = Ok (num (slice lo k d)).
Proof.
  intros n d lo k Hd H K. unfold load_field.
  match goal with |- for_up ?a ?b ?f ?s0 = _ => destruct (for_up_ok (fun i u => u = num (slice lo (Z.to_nat (i - Z.of_nat lo)) d)) f a b s0) as (u & E & P) end.
  - lia.
  - intros i u Hi ->. set (j := Z.to_nat (i - Z.of_nat lo)). replace (Z.to_nat (i + 1 - Z.of_nat lo)) with (S j) by lia.
    rewrite slice_snoc by (destruct Hd; lia). rewrite num_app, num_single. change (2 ^ Z.of_nat (length [nth (lo + j) d 0])) with (2 ^ 1).
    pose proof (num_range j (slice lo j d) (slice_bits n d lo j Hd ltac:(lia))) as R.
    assert (P : 2 ^ Z.of_nat j <= 2 ^ 20) by (apply Z.pow_le_mono_r; lia). change (2 ^ 20) with 1048576 in P.
    rewrite shl_ok by (change (2 ^ 1) with 2; lia). cbn [bind]. destruct (bit_at n d i Hd) as [E B]; [lia|]. rewrite E. cbn [bind].
    replace (Z.to_nat i) with (lo + j)%nat in * by lia. eexists. split; [reflexivity|]. apply lor_add; [lia|]. destruct B as [-> | ->]; lia.
  - replace (Z.to_nat (Z.of_nat lo - Z.of_nat lo)) with O by lia. reflexivity.
  - rewrite E, P. do 3 f_equal. lia.
Qed.

(* ---- tone signature ---- *)
Lemma slice_split : forall {A} lo a b (d : list A), slice lo (a + b) d = slice lo a d ++ slice (lo + a) b d.
Proof.
  intros A lo a b d. unfold slice. rewrite <- skipn_skipn'. rewrite <- (firstn_skipn a (skipn lo d)) at 1. rewrite firstn_app.
  rewrite firstn_firstn. replace (Nat.min (a + b) a) with a by lia. rewrite firstn_length. destruct (Nat.le_gt_cases a (length (skipn lo d))) as [H|H].
  - replace (a + b - Nat.min a (length (skipn lo d)))%nat with b by lia. reflexivity.
  - f_equal. rewrite (skipn_all2 (n := a)) by lia. now rewrite !firstn_nil.
Qed.
Lemma land_ones_mod : forall x k, 0 <= k -> Z.land x (2 ^ k - 1) = x mod 2 ^ k.
Proof. intros x k H. rewrite <- Z.land_ones by exact H. rewrite Z.ones_equiv. f_equal. Qed.
Lemma num_high : forall a b, 0 <= num b < 2 ^ Z.of_nat (length b) -> Z.shiftr (num (a ++ b)) (Z.of_nat (length b)) = num a.
Proof.
  intros a b H. rewrite num_app, Z.shiftr_div_pow2 by lia. symmetry. apply Z.div_unique with (num b); [left; exact H|ring].
Qed.
Lemma num_low : forall a b, 0 <= num b < 2 ^ Z.of_nat (length b) -> num (a ++ b) mod 2 ^ Z.of_nat (length b) = num b.
Proof. intros a b H. rewrite num_app. rewrite Z.add_comm, Z.mod_add by lia. apply Z.mod_small. exact H. Qed.
Lemma num_slice_high : forall d lo a b, is_bits 49 d -> (lo + (a + b) <= 49)%nat -> Z.shiftr (num (slice lo (a + b) d)) (Z.of_nat b) = num (slice lo a d).
Proof.
  intros d lo a b Hd H. rewrite slice_split. pose proof (slice_bits 49 d (lo + a) b Hd ltac:(lia)) as B. pose proof (num_range b _ B) as R. destruct B as [LB _].
  rewrite <- LB at 2. apply num_high. rewrite LB. exact R.
Qed.
Lemma num_slice_low : forall d lo a b, is_bits 49 d -> (lo + (a + b) <= 49)%nat -> num (slice lo (a + b) d) mod 2 ^ Z.of_nat b = num (slice (lo + a) b d).
Proof.
  intros d lo a b Hd H. rewrite slice_split. pose proof (slice_bits 49 d (lo + a) b Hd ltac:(lia)) as B. pose proof (num_range b _ B) as R. destruct B as [LB _].
  rewrite <- LB at 2. apply num_low. rewrite LB. exact R.
Qed.
Lemma num_slice_eq : forall d lo n l v, is_bits 49 d -> (lo + n <= 49)%nat -> is_bits n l -> num l = v -> (num (slice lo n d) =? v) = true <-> slice lo n d = l.
Proof.
  intros d lo n l v Hd H Hl <-. rewrite Z.eqb_eq. split; [|now intros ->]. apply (num_inj n); [apply (slice_bits 49); assumption|exact Hl].
Qed.
Ltac bits := split; [reflexivity|repeat (constructor; [first [left; reflexivity|right; reflexivity]|]); constructor].
Lemma mod_of_range : forall x k m, 0 <= x < m -> 2 ^ k = m -> x mod 2 ^ k = x.
Proof. intros x k m H <-. now apply Z.mod_small. Qed.
Lemma tone_verified_ok : forall d, is_bits 49 d -> exists b, tone_verified d = Ok b /\ (b = true <-> tone2450 d).
Proof.
  intros d Hd. unfold tone_verified.
  change 0 with (Z.of_nat 0) at 1. change 12 with (Z.of_nat (0 + 12)) at 1. rewrite (load_field_ok 49) by (exact Hd || lia). cbn [bind].
  change 12 with (Z.of_nat 12). change 24 with (Z.of_nat (12 + 12)) at 1. rewrite (load_field_ok 49) by (exact Hd || lia). cbn [bind].
  change 24 with (Z.of_nat 24). change 35 with (Z.of_nat (24 + 11)) at 1. rewrite (load_field_ok 49) by (exact Hd || lia). cbn [bind].
  change 35 with (Z.of_nat 35). change 49 with (Z.of_nat (35 + 14)) at 1. rewrite (load_field_ok 49) by (exact Hd || lia). cbn [bind].
  eexists. split; [reflexivity|]. unfold tone2450.
  assert (E0 : Z.land (Z.shiftr (num (slice 0 12 d)) 6) 63 = num (slice 0 6 d)).
  { assert (X : Z.shiftr (num (slice 0 12 d)) 6 = num (slice 0 6 d)) by exact (num_slice_high d 0 6 6 Hd ltac:(lia)). rewrite X. change 63 with (2 ^ 6 - 1). rewrite land_ones_mod by lia.
    apply (mod_of_range _ 6 64); [apply (num_range 6), (slice_bits 49); [exact Hd|lia]|reflexivity]. }
  assert (E3 : Z.land (num (slice 35 14 d)) 15 = num (slice 45 4 d)).
  { change 15 with (2 ^ 4 - 1). rewrite land_ones_mod by lia. exact (num_slice_low d 35 10 4 Hd ltac:(lia)). }
  assert (E1 : Z.land (Z.shiftr (num (slice 12 12 d)) 8) 15 = num (slice 12 4 d)).
  { assert (X : Z.shiftr (num (slice 12 12 d)) 8 = num (slice 12 4 d)) by exact (num_slice_high d 12 4 8 Hd ltac:(lia)). rewrite X. change 15 with (2 ^ 4 - 1). rewrite land_ones_mod by lia.
    apply (mod_of_range _ 4 16); [apply (num_range 4), (slice_bits 49); [exact Hd|lia]|reflexivity]. }
  assert (E2 : Z.land (num (slice 12 12 d)) 15 = num (slice 20 4 d)).
  { change 15 with (2 ^ 4 - 1). rewrite land_ones_mod by lia. exact (num_slice_low d 12 8 4 Hd ltac:(lia)). }
  rewrite E0, E1, E2, E3. rewrite andb_true_iff, orb_true_iff.
  rewrite (num_slice_eq d 0 6 [1; 1; 1; 1; 1; 1]) by (exact Hd || lia || bits || reflexivity).
  rewrite (num_slice_eq d 45 4 [0; 0; 0; 0]) by (exact Hd || lia || bits || reflexivity).
  rewrite (num_slice_eq d 12 4 (slice 20 4 d)) by (exact Hd || lia || reflexivity || (apply (slice_bits 49); [exact Hd|lia])).
  reflexivity.
Qed.

(* ---- tables ---- *)
Definition shape_b {A} (n m : nat) (a : list (list A)) : bool := (length a =? n)%nat && forallb (fun r => (length r =? m)%nat) a.
Lemma shape_b_ok : forall {A} n m (a : list (list A)), shape_b n m a = true -> shape n m a.
Proof.
  intros A n m a H. apply andb_true_iff in H as [H1 H2]. split; [now apply Nat.eqb_eq|]. apply Forall_forall. intros r Hr.
  rewrite forallb_forall in H2. now apply Nat.eqb_eq, H2.
Qed.
(* codebook sizes: gain, and the four higher order codebooks *)
Record codebooks (T : ambe_tables) (ndg n5 n6 n7 n8 : nat) : Prop := {
  cb_dg : length (at_Dg T) = ndg;
  cb_24 : shape 512 3 (at_PRBA24 T); cb_58 : shape 128 4 (at_PRBA58 T);
  cb_5 : shape n5 4 (at_HOC5 T); cb_6 : shape n6 4 (at_HOC6 T); cb_7 : shape n7 4 (at_HOC7 T); cb_8 : shape n8 4 (at_HOC8 T);
  cb_j : forall L, 9 <= L <= 56 -> exists j1 j2 j3 j4, rd2 (at_Lmprbl T) L 0 = Ok j1 /\ rd2 (at_Lmprbl T) L 1 = Ok j2 /\ rd2 (at_Lmprbl T) L 2 = Ok j3 /\
    rd2 (at_Lmprbl T) L 3 = Ok j4 /\ 2 <= j1 <= 17 /\ 2 <= j2 <= 17 /\ 2 <= j3 <= 17 /\ 2 <= j4 <= 17 /\ j1 + j2 + j3 + j4 = L
}.
Definition blocks_b (T : ambe_tables) : bool := forallb (fun z => let L := z + 9 in
  match rd2 (at_Lmprbl T) L 0, rd2 (at_Lmprbl T) L 1, rd2 (at_Lmprbl T) L 2, rd2 (at_Lmprbl T) L 3 with
  | Ok a, Ok b, Ok c, Ok d => (2 <=? a) && (a <=? 17) && (2 <=? b) && (b <=? 17) && (2 <=? c) && (c <=? 17) && (2 <=? d) && (d <=? 17) && (a + b + c + d =? L)
  | _, _, _, _ => false end) (zrange 48).
Lemma blocks_b_ok : forall T, blocks_b T = true -> forall L, 9 <= L <= 56 -> exists j1 j2 j3 j4, rd2 (at_Lmprbl T) L 0 = Ok j1 /\ rd2 (at_Lmprbl T) L 1 = Ok j2 /\ rd2 (at_Lmprbl T) L 2 = Ok j3 /\
    rd2 (at_Lmprbl T) L 3 = Ok j4 /\ 2 <= j1 <= 17 /\ 2 <= j2 <= 17 /\ 2 <= j3 <= 17 /\ 2 <= j4 <= 17 /\ j1 + j2 + j3 + j4 = L.
Proof.
  intros T H L HL. pose proof (zrange_forallb 48 _ H (L - 9) ltac:(lia)) as E. cbv beta zeta in E. replace (L - 9 + 9) with L in E by lia.
  destruct (rd2 (at_Lmprbl T) L 0) as [a|]; [|discriminate E]. destruct (rd2 (at_Lmprbl T) L 1) as [b|]; [|discriminate E].
  destruct (rd2 (at_Lmprbl T) L 2) as [c|]; [|discriminate E]. destruct (rd2 (at_Lmprbl T) L 3) as [e|]; [|discriminate E].
  exists a, b, c, e. repeat split; try reflexivity; lia.
Qed.
Lemma codebooks2450 : codebooks tables2450 32 32 16 16 8.
Proof.
  split; try (apply shape_b_ok; vm_compute; reflexivity); [reflexivity|]. apply blocks_b_ok. vm_compute. reflexivity.
Qed.
Lemma codebooks2400 : codebooks tables2400 64 16 16 16 16.
Proof.
  split; try (apply shape_b_ok; vm_compute; reflexivity); [reflexivity|]. apply blocks_b_ok. vm_compute. reflexivity.
Qed.

(* ---- spectral vectors ---- *)
Lemma ambe_gm_ok : forall T nd n5 n6 n7 n8 b3 b4, codebooks T nd n5 n6 n7 n8 -> 0 <= b3 < 512 -> 0 <= b4 < 128 -> exists Gm, ambe_gm T b3 b4 = Ok Gm /\ filled_opt 9 1 9 Gm.
Proof.
  intros T nd n5 n6 n7 n8 b3 b4 C H3 H4. unfold ambe_gm.
  destruct (rd2_ok _ _ _ b3 0 (cb_24 _ _ _ _ _ _ C)) as [g2 ->]; [lia|lia|]. destruct (rd2_ok _ _ _ b3 1 (cb_24 _ _ _ _ _ _ C)) as [g3 ->]; [lia|lia|].
  destruct (rd2_ok _ _ _ b3 2 (cb_24 _ _ _ _ _ _ C)) as [g4 ->]; [lia|lia|].
  destruct (rd2_ok _ _ _ b4 0 (cb_58 _ _ _ _ _ _ C)) as [g5 ->]; [lia|lia|]. destruct (rd2_ok _ _ _ b4 1 (cb_58 _ _ _ _ _ _ C)) as [g6 ->]; [lia|lia|].
  destruct (rd2_ok _ _ _ b4 2 (cb_58 _ _ _ _ _ _ C)) as [g7 ->]; [lia|lia|]. destruct (rd2_ok _ _ _ b4 3 (cb_58 _ _ _ _ _ _ C)) as [g8 ->]; [lia|lia|].
  cbn [bind]. eexists. split; [reflexivity|]. split; [reflexivity|]. intros i Hi.
  assert (i = 1 \/ i = 2 \/ i = 3 \/ i = 4 \/ i = 5 \/ i = 6 \/ i = 7 \/ i = 8) as [->|[->|[->|[->|[->|[->|[->| -> ]]]]]]] by lia; eexists; reflexivity.
Qed.
Lemma ambe_ri_ok : forall o Gm, filled_opt 9 1 9 Gm -> exists Ri, ambe_ri o Gm = Ok Ri /\ filled_opt 9 1 9 Ri.
Proof.
  intros o Gm [_ F]. unfold ambe_ri.
  match goal with |- exists V, for_up _ _ ?f ?s0 = _ /\ _ => destruct (for_up_ok (fun i s => filled_opt 9 1 i s) f 1 9 s0) as (G & E & P) end;
    [lia| |split; [reflexivity|intros; lia]|exists G; auto].
  intros i R Hi FR.
  match goal with |- context [for_up 1 9 ?f ?s0] => destruct (for_up_ok0 (fun _ : f32 => True) f 1 9 s0) as (s & E & _) end; [|exact I|].
  { intros m s Hm _. destruct (F m Hm) as [g Hg]. rewrite (rdi_some _ _ _ Hg). cbn [bind]. cbv zeta. eauto. }
  rewrite E. cbn [bind]. apply filled_opt_step; [exact FR|lia|lia].
Qed.
(* coefficient arrays in which the cells selected by P are written *)
Definition written (P : Z -> Z -> Prop) (C : list (list (option f32))) : Prop :=
  shape 5 18 C /\ forall i k, P i k -> exists x, rd2 C i k = Ok (Some x).
Lemma written_step : forall P C i k x, written P C -> 0 <= i < 5 -> 0 <= k < 18 ->
  exists C', wr2 C i k (Some x) = Ok C' /\ written (fun i' k' => P i' k' \/ i' = i /\ k' = k) C'.
Proof.
  intros P C i k x [S W] Hi Hk. destruct (wr2_ok 5 18 C i k (Some x) S) as (C' & E & S' & SM & OT); [lia|lia|]. exists C'. split; [exact E|]. split; [exact S'|].
  intros i' k' H. destruct (Z.eq_dec i' i) as [->|N1]; [destruct (Z.eq_dec k' k) as [->|N2]; [eauto|]|].
  - rewrite OT by lia. apply W. destruct H as [H|[_ H]]; [exact H|contradiction].
  - rewrite OT by lia. apply W. destruct H as [H|[H _]]; [exact H|contradiction].
Qed.
Lemma written_weak : forall (P Q : Z -> Z -> Prop) C, (forall i k, Q i k -> P i k) -> written P C -> written Q C.
Proof. intros P Q C H [S W]. split; [exact S|auto]. Qed.
Lemma ambe_cik12_ok : forall Ri, filled_opt 9 1 9 Ri -> exists C, for_up 1 5 (ambe_cik12 Ri) (fresh2 5 18) = Ok C /\ written (fun i k => 1 <= i <= 4 /\ 1 <= k <= 2) C.
Proof.
  intros Ri [_ F]. destruct (for_up_ok (fun n C => written (fun i k => 1 <= i < n /\ 1 <= k <= 2) C) (ambe_cik12 Ri) 1 5 (fresh2 5 18)) as (C & E & W).
  - lia.
  - intros n C Hn W. unfold ambe_cik12. destruct (F (2 * n - 1)) as [a Ha]; [lia|]. destruct (F (2 * n)) as [b Hb]; [lia|].
    rewrite (rdi_some _ _ _ Ha), (rdi_some _ _ _ Hb). cbn [bind].
    destruct (written_step _ C n 1 (fmul fhalf (fadd a b)) W) as (C1 & E1 & W1); [lia|lia|]. rewrite E1. cbn [bind].
    destruct (written_step _ C1 n 2 (fmul rconst (fsub a b)) W1) as (C2 & E2 & W2); [lia|lia|]. exists C2. split; [exact E2|].
    eapply written_weak; [|exact W2]. cbv beta. intros i k Hik. lia.
  - split; [exact (shape_fresh 5 18)|]. intros i k H. lia.
  - exists C. split; [exact E|]. eapply written_weak; [|exact W]. cbv beta. intros. lia.
Qed.
Lemma ambe_hoc_ok : forall tab n b i ji C P, shape n 4 tab -> 0 <= b < Z.of_nat n -> 1 <= i <= 4 -> 2 <= ji <= 17 -> written P C ->
  exists C', ambe_hoc tab b i ji C = Ok C' /\ written (fun i' k' => P i' k' \/ i' = i /\ 3 <= k' <= ji) C'.
Proof.
  intros tab n b i ji C P S Hb Hi Hj W. unfold ambe_hoc.
  match goal with |- exists V, for_up _ _ ?f ?s0 = _ /\ _ => destruct (for_up_ok (fun m C => written (fun i' k' => P i' k' \/ i' = i /\ 3 <= k' < m) C) f 3 (ji + 1) s0) as (C' & E & W') end.
  - lia.
  - intros k C1 Hk W1.
    assert (X : forall x, exists C2, wr2 C1 i k (Some x) = Ok C2 /\ written (fun i' k' => P i' k' \/ i' = i /\ 3 <= k' < k + 1) C2).
    { intros x. destruct (written_step _ C1 i k x W1) as (C2 & E2 & W2); [lia|lia|]. exists C2. split; [exact E2|].
      eapply written_weak; [|exact W2]. cbv beta. intros i' k' [H|[H1 H2]]; [auto|]. destruct (Z.eq_dec k' k); [right; auto|left; right; lia]. }
    destruct (Z.ltb_spec 6 k); [apply X|]. destruct (rd2_ok _ _ tab b (k - 3) S) as [h ->]; [lia|lia|]. cbn [bind]. apply X.
  - eapply written_weak; [|exact W]. cbv beta. intros i' k' [H|H]; [exact H|lia].
  - exists C'. split; [exact E|]. eapply written_weak; [|exact W']. cbv beta. intros i' k' [H|H]; [auto|right; lia].
Qed.
Lemma ambe_tl_ok : forall o Ji C L, (forall i, 1 <= i <= 4 -> 2 <= Ji i <= 17) -> Ji 1 + Ji 2 + Ji 3 + Ji 4 = L -> L <= 56 ->
  written (fun i k => 1 <= i <= 4 /\ 1 <= k <= Ji i) C -> exists Tl, ambe_tl o Ji C = Ok Tl /\ length Tl = 57%nat.
Proof.
  intros o Ji C L HJ HS HL [S W]. unfold ambe_tl.
  pose (before := fun i => (if 1 <? i then Ji 1 else 0) + (if 2 <? i then Ji 2 else 0) + (if 3 <? i then Ji 3 else 0) + (if 4 <? i then Ji 4 else 0)).
  match goal with |- exists V, bind (for_up _ _ ?f ?s0) _ = _ /\ _ => destruct (for_up_ok (fun i (s : list f32 * Z) =>
      length (fst s) = 57%nat /\ snd s = 1 + before i) f 1 5 s0) as ([T m] & E & Q & _) end;
    [lia| | |rewrite E; cbn [bind]; exists T; auto].
  - intros i [T l] Hi [LT Hl]. cbn [fst snd] in *. cbv zeta. pose proof (HJ i ltac:(lia)) as J.
    assert (B : before (i + 1) = before i + Ji i /\ before i + Ji i <= L).
    { pose proof (HJ 1 ltac:(lia)). pose proof (HJ 2 ltac:(lia)). pose proof (HJ 3 ltac:(lia)). pose proof (HJ 4 ltac:(lia)).
      assert (i = 1 \/ i = 2 \/ i = 3 \/ i = 4) as [->|[->|[->| -> ]]] by lia; unfold before;
      repeat match goal with |- context [?a <? ?b] => destruct (Z.ltb_spec a b); try lia end. }
    destruct B as [B1 B2].
    match goal with |- exists V, for_up _ _ ?f ?s0 = _ /\ _ => destruct (for_up_ok (fun j (s : list f32 * Z) =>
      length (fst s) = 57%nat /\ snd s = 1 + before i + (j - 1)) f 1 (Ji i + 1) s0) as ([T2 m2] & E & P2 & Q2) end.
    + lia.
    + intros j [T3 m3] Hj [P3 Q3]. cbn [fst snd] in *. assert (B0 : 0 <= before i) by (unfold before; pose proof (HJ 1 ltac:(lia)); pose proof (HJ 2 ltac:(lia)); pose proof (HJ 3 ltac:(lia)); pose proof (HJ 4 ltac:(lia)); destruct (1 <? i), (2 <? i), (3 <? i), (4 <? i); lia).
      match goal with |- context [for_up 1 (Ji i + 1) ?f fzero] => destruct (for_up_ok0 (fun _ : f32 => True) f 1 (Ji i + 1) fzero) as (s & E & _) end; [|exact I|].
      { intros k s Hk _. destruct (W i k) as [x Hx]; [lia|]. rewrite (rdi2_some _ _ _ _ Hx). cbn [bind]. cbv zeta. eauto. }
      rewrite E. cbn [bind]. rewrite wr_ok by lia. cbn [bind]. eexists. split; [reflexivity|]. cbn [fst snd]. rewrite set_nth_length. split; [exact P3|lia].
    + cbn [fst snd]. split; [exact LT|lia].
    + exists (T2, m2). split; [exact E|]. cbn [fst snd] in *. split; [exact P2|lia].
  - cbn [fst snd]. split; [apply repeat_length|reflexivity].
Qed.
(* up to the prediction the amplitudes never fail *)
Lemma amplitudes_run : forall o T nd n5 n6 n7 n8 u L b2 b3 b4 b5 b6 b7 b8 cur prev, codebooks T nd n5 n6 n7 n8 -> 9 <= L <= 56 ->
  0 <= b2 < Z.of_nat nd -> 0 <= b3 < 512 -> 0 <= b4 < 128 -> 0 <= b5 < Z.of_nat n5 -> 0 <= b6 < Z.of_nat n6 -> 0 <= b7 < Z.of_nat n7 -> 0 <= b8 < Z.of_nat n8 ->
  exists Tl, length Tl = 57%nat /\
    ambe_amplitudes o T u L b2 b3 b4 b5 b6 b7 b8 cur prev =
      (prev' <- ambe_extend_prev L prev ;;
       cur' <- ambe_predict o u L prev' Tl (set_gamma (fadd (nth (Z.to_nat b2) (at_Dg T) fzero) (fmul fhalf (p_gamma prev))) cur) ;;
       Ok (cur', prev')).
Proof.
  intros o T nd n5 n6 n7 n8 u L b2 b3 b4 b5 b6 b7 b8 cur prev CB HL H2 H3 H4 H5 H6 H7 H8. unfold ambe_amplitudes.
  rewrite (rd_nth (at_Dg T) b2 fzero) by (rewrite (cb_dg _ _ _ _ _ _ CB); exact H2). cbn [bind]. cbv zeta.
  destruct (ambe_gm_ok T _ _ _ _ _ b3 b4 CB H3 H4) as (Gm & -> & FG). cbn [bind].
  destruct (ambe_ri_ok o Gm FG) as (Ri & -> & FR). cbn [bind].
  destruct (ambe_cik12_ok Ri FR) as (C0 & -> & W0). cbn [bind].
  destruct (cb_j _ _ _ _ _ _ CB L HL) as (j1 & j2 & j3 & j4 & -> & -> & -> & -> & J1 & J2 & J3 & J4 & JS). cbn [bind].
  destruct (ambe_hoc_ok _ _ b5 1 j1 C0 _ (cb_5 _ _ _ _ _ _ CB) H5 ltac:(lia) J1 W0) as (C1 & -> & W1). cbn [bind].
  destruct (ambe_hoc_ok _ _ b6 2 j2 C1 _ (cb_6 _ _ _ _ _ _ CB) H6 ltac:(lia) J2 W1) as (C2 & -> & W2). cbn [bind].
  destruct (ambe_hoc_ok _ _ b7 3 j3 C2 _ (cb_7 _ _ _ _ _ _ CB) H7 ltac:(lia) J3 W2) as (C3 & -> & W3). cbn [bind].
  destruct (ambe_hoc_ok _ _ b8 4 j4 C3 _ (cb_8 _ _ _ _ _ _ CB) H8 ltac:(lia) J4 W3) as (C4 & -> & W4). cbn [bind].
  match goal with |- context [ambe_tl o ?J C4] => destruct (ambe_tl_ok o J C4 L) as (Tl & -> & LT) end.
  - intros i Hi. assert (i = 1 \/ i = 2 \/ i = 3 \/ i = 4) as [->|[->|[->| -> ]]] by lia; cbn; lia.
  - cbn. lia.
  - lia.
  - eapply written_weak; [|exact W4]. cbv beta. intros i k [Hi Hk]. assert (i = 1 \/ i = 2 \/ i = 3 \/ i = 4) as [->|[->|[->| -> ]]] by lia; cbn in Hk; lia.
  - cbn [bind]. exists Tl. split; [exact LT|]. reflexivity.
Qed.

(* ---- what decoding changes ---- *)
Lemma ambe_extend_extended : forall L prev prev', ambe_extend_prev L prev = Ok prev' ->
  extended0 (p_L prev) L (p_Ml prev) (p_Ml prev') /\ extended0 (p_L prev) L (p_log2Ml prev) (p_log2Ml prev').
Proof.
  intros L prev prev' H. unfold ambe_extend_prev in H. apply bind_inv in H as (p & E & H). apply extend_prev_extended in E as [(A1 & B1 & C1) (A2 & B2 & C2)].
  apply bind_inv in H as (g & G & H). apply bind_inv in H as (lg & W1 & H). apply bind_inv in H as (m & M & H). apply bind_inv in H as (ml & W2 & H).
  injection H as <-. fields. split.
  - split; [rewrite (wr_len _ _ _ _ W2); exact A1|]. split; [rewrite (rd_wr_same _ _ _ _ W2), (rd_wr_other _ _ 1 _ _ W2) by lia; congruence|].
    split; intros l Hl Hn; rewrite (rd_wr_other _ _ l _ _ W2) by lia; [apply B1; lia|apply C1; lia].
  - split; [rewrite (wr_len _ _ _ _ W1); exact A2|]. split; [rewrite (rd_wr_same _ _ _ _ W1), (rd_wr_other _ _ 1 _ _ W1) by lia; congruence|].
    split; intros l Hl Hn; rewrite (rd_wr_other _ _ l _ _ W1) by lia; [apply B2; lia|apply C2; lia].
Qed.
Lemma ambe_finish : forall o u L w0 dg V v Tl cur prev cur' prev',
  (forall l, 1 <= l <= L -> rd V l = Ok (v l)) -> same_outside L (p_Vl cur) V ->
  ambe_extend_prev L prev = Ok prev' ->
  ambe_predict o u L prev' Tl (set_gamma (fadd dg (fmul fhalf (p_gamma prev))) (set_Vl V (set_L L (set_w0 w0 (set_repeat (p_repeat prev) cur))))) = Ok cur' ->
  ambe_accepted L w0 dg v cur prev cur' prev'.
Proof.
  intros o u L w0 dg V v Tl cur prev cur' prev' HV HO HE HP. pose proof (ambe_extend_extended _ _ _ HE) as [X1 X2]. apply ambe_extend_effect in HE as [HE _].
  apply ambe_predict_effect in HP as (B & [N1 N2] & K). fields. unfold ambe_accepted.
  match type of B with but_logs ?c _ => assert (F : forall {A} (g : parms -> A), (forall x y m, g (set_log2Ml x (set_Ml y m)) = g m) -> g cur' = g c) end.
  { intros A g Hg. rewrite B. apply Hg. }
  rewrite (F _ p_L), (F _ p_repeat), (F _ p_Vl), (F _ p_w0), (F _ p_gamma) by reflexivity. fields.
  split; [reflexivity|]. split; [reflexivity|]. split; [reflexivity|]. split; [reflexivity|]. split; [exact HV|]. split; [exact HO|].
  split; [split; [exact N1|intros l Hl; apply K, Hl]|]. split; [split; [exact N2|intros l Hl; apply K, Hl]|].
  split; [exact B|]. split; [exact X1|]. split; [exact X2|]. exact HE.
Qed.
Lemma clear_vl_ok : forall L V, length V = 57%nat -> 0 <= L <= 56 -> exists V', clear_vl L V = Ok V' /\ length V' = 57%nat /\
  (forall l, 1 <= l <= L -> rd V' l = Ok 0) /\ (forall l, l < 1 \/ L < l -> rd V' l = rd V l).
Proof.
  intros L V LV HL. unfold clear_vl.
  match goal with |- exists V', for_up _ _ ?f ?s0 = _ /\ _ => destruct (for_up_ok (fun n X => length X = 57%nat /\ (forall l, 1 <= l < n -> rd X l = Ok 0) /\ (forall l, l < 1 \/ n <= l -> rd X l = rd V l)) f 1 (L + 1) s0)
    as (X & E & A & B & C) end.
  - lia.
  - intros k X Hk (A & B & C). pose proof (wr_ok X k 0 ltac:(lia)) as W. eexists. split; [exact W|]. split; [now rewrite set_nth_length|]. split; intros l Hl; rewrite (rd_wr_any _ _ _ _ _ W).
    + destruct (Z.eqb_spec l k); [reflexivity|]. apply B. lia.
    + destruct (Z.eqb_spec l k); [lia|]. apply C. lia.
  - split; [exact LV|]. split; [intros; lia|reflexivity].
  - exists X. split; [exact E|]. split; [exact A|]. split; intros l Hl; [apply B; lia|apply C; lia].
Qed.
(* the voicing loop: each harmonic takes the entry of its band in the row of the voicing code *)
Lemma vuv_loop_ok : forall (tab : list (list Z)) n b1 f0 L V, shape n 8 tab -> 0 <= b1 < Z.of_nat n -> length V = 57%nat -> 0 <= L <= 56 ->
  (forall l, 1 <= l <= L -> vuv_index f0 l = Ok (band_of f0 l) /\ 0 <= band_of f0 l < 8) ->
  exists V', for_up 1 (L + 1) (fun l Vl => jl <- vuv_index f0 l ;; v <- rd2 tab b1 jl ;; wr Vl l v) V = Ok V' /\ length V' = 57%nat /\
  (forall l, 1 <= l <= L -> rd V' l = Ok (nth (Z.to_nat (band_of f0 l)) (nth (Z.to_nat b1) tab []) 0)) /\ (forall l, l < 1 \/ L < l -> rd V' l = rd V l).
Proof.
  intros tab n b1 f0 L V S Hb LV HL HF.
  match goal with |- exists V', for_up _ _ ?f ?s0 = _ /\ _ => destruct (for_up_ok (fun m X => length X = 57%nat /\ (forall l, 1 <= l < m -> rd X l = Ok (nth (Z.to_nat (band_of f0 l)) (nth (Z.to_nat b1) tab []) 0))
     /\ (forall l, l < 1 \/ m <= l -> rd X l = rd V l)) f 1 (L + 1) s0) as (X & E & A & B & C) end.
  - lia.
  - intros k X Hk (A & B & C). destruct (HF k ltac:(lia)) as [-> R]. cbn [bind].
    assert (E : rd2 tab b1 (band_of f0 k) = Ok (nth (Z.to_nat (band_of f0 k)) (nth (Z.to_nat b1) tab []) 0)).
    { unfold rd2. destruct S as [S1 S2]. assert (E : rd tab b1 = Ok (nth (Z.to_nat b1) tab [])) by (apply rd_nth; lia). rewrite E. cbn [bind].
      apply rd_nth. rewrite (shape_row n 8 tab b1 _ (conj S1 S2) E). lia. }
    rewrite E. cbn [bind]. pose proof (wr_ok X k (nth (Z.to_nat (band_of f0 k)) (nth (Z.to_nat b1) tab []) 0) ltac:(lia)) as W.
    eexists. split; [exact W|]. split; [now rewrite set_nth_length|]. split; intros l Hl; rewrite (rd_wr_any _ _ _ _ _ W).
    + destruct (Z.eqb_spec l k) as [->|N]; [reflexivity|]. apply B. lia.
    + destruct (Z.eqb_spec l k); [lia|]. apply C. lia.
  - split; [exact LV|]. split; [intros; lia|reflexivity].
  - exists X. split; [exact E|]. split; [exact A|]. split; intros l Hl; [apply B; lia|apply C; lia].
Qed.

(* ---- 3600x2450 ---- *)
Lemma times16 : forall l, 1 <= l <= 56 -> fmul (f_of_Z l) (f_of_Z 16) = f_of_Z (16 * l).
Proof.
  intros l Hl. assert (E : map (fun k => fmul (f_of_Z (Z.of_nat k)) (f_of_Z 16)) (seq 0 57) = map (fun k => f_of_Z (16 * Z.of_nat k)) (seq 0 57)) by (vm_compute; reflexivity).
  assert (A : rd (map (fun k => fmul (f_of_Z (Z.of_nat k)) (f_of_Z 16)) (seq 0 57)) l = rd (map (fun k => f_of_Z (16 * Z.of_nat k)) (seq 0 57)) l) by (rewrite E; reflexivity).
  rewrite !rd_map_seq in A by lia. injection A as A. replace (Z.of_nat (Z.to_nat l)) with l in A by lia. exact A.
Qed.
Lemma vuv_index_band : forall f0 l z, 1 <= l <= 56 -> sf_trunc (fmul (f_of_Z (16 * l)) f0) = Some z -> 0 <= z < 8 -> vuv_index f0 l = Ok (band_of f0 l) /\ 0 <= band_of f0 l < 8.
Proof.
  intros f0 l z Hl E R. unfold vuv_index, band_of, whole, sf_to_int. rewrite times16 by exact Hl. rewrite E. split; [|exact R].
  unfold in_int. destruct ((-2147483648 <=? z) && (z <=? 2147483647)) eqn:F; [reflexivity|lia].
Qed.
Definition some_in (lo hi : Z) (x : option Z) : bool := match x with Some z => (lo <=? z) && (z <=? hi) | None => false end.
Lemma codes2450_all : forallb (fun b => some_in 9 56 (sf_trunc (nth (Z.to_nat b) AmbeLtable fzero)) &&
  forallb (fun k => (whole (nth (Z.to_nat b) AmbeLtable fzero) <=? k) || some_in 0 7 (sf_trunc (fmul (f_of_Z (16 * (k + 1))) (nth (Z.to_nat b) AmbeW0table fzero)))) (zrange 56)) (zrange 120) = true.
Proof. vm_compute. reflexivity. Qed.
Lemma codes2450 : forall b, 0 <= b < 120 -> sf_to_int (nth (Z.to_nat b) AmbeLtable fzero) = Ok (harmonics2450 b) /\ 9 <= harmonics2450 b <= 56 /\
  forall l, 1 <= l <= harmonics2450 b -> vuv_index (nth (Z.to_nat b) AmbeW0table fzero) l = Ok (band_of (nth (Z.to_nat b) AmbeW0table fzero) l) /\ 0 <= band_of (nth (Z.to_nat b) AmbeW0table fzero) l < 8.
Proof.
  intros b Hb. pose proof (zrange_forallb 120 _ codes2450_all b ltac:(lia)) as A. cbv beta in A. apply andb_true_iff in A as [A1 A2].
  unfold harmonics2450. destruct (Z.eqb_spec b 124); [lia|]. destruct (Z.eqb_spec b 125); [lia|].
  unfold whole in *. unfold sf_to_int. destruct (sf_trunc (nth (Z.to_nat b) AmbeLtable fzero)) as [z|]; [|discriminate A1]. cbn [some_in] in A1.
  split; [unfold in_int; destruct ((-2147483648 <=? z) && (z <=? 2147483647)) eqn:F; [reflexivity|lia]|]. split; [lia|].
  intros l Hl. pose proof (zrange_forallb 56 _ A2 (l - 1) ltac:(lia)) as C. cbv beta in C. replace (l - 1 + 1) with l in C by lia.
  destruct (Z.leb_spec z (l - 1)); [lia|]. cbn [orb] in C. destruct (sf_trunc (fmul (f_of_Z (16 * l)) (nth (Z.to_nat b) AmbeW0table fzero))) as [y|] eqn:E; [|discriminate C].
  cbn [some_in] in C. apply (vuv_index_band _ l y); [lia|exact E|lia].
Qed.
Lemma silence_bands : forall l, 1 <= l <= 15 -> exists j, vuv_index silence_f0 l = Ok j.
Proof.
  intros l Hl. assert (A : forallb (fun k => match vuv_index silence_f0 (k + 1) with Ok _ => true | _ => false end) (zrange 15) = true) by (vm_compute; reflexivity).
  pose proof (zrange_forallb 15 _ A (l - 1) ltac:(lia)) as C. cbv beta in C. replace (l - 1 + 1) with l in C by lia. destruct (vuv_index silence_f0 l); [eauto|discriminate C].
Qed.
Ltac positions := repeat (constructor; [lia|]); constructor.
Definition voice2450 (b0 : Z) : Prop := 0 <= b0 < 120 \/ b0 = 124 \/ b0 = 125.
Lemma harmonics2450_range : forall b, voice2450 b -> 9 <= harmonics2450 b <= 56.
Proof. intros b [H|[->| -> ]]; [apply codes2450, H|vm_compute; split; discriminate|vm_compute; split; discriminate]. Qed.
Lemma pitch2450_range : forall d, is_bits 49 d -> 0 <= pitch2450 d < 128.
Proof. intros d Hd. apply (bits_at_range 49 d [0; 1; 2; 3; 37; 38; 39] Hd). positions. Qed.
Lemma ambe2450_pitch_ok : forall d cur, is_bits 49 d -> length (p_Vl cur) = 57%nat -> voice2450 (pitch2450 d) ->
  let L := harmonics2450 (pitch2450 d) in exists V u, length V = 57%nat /\ (forall l, 1 <= l <= L -> rd V l = Ok (voicing2450 d l)) /\ (forall l, l < 1 \/ L < l -> rd V l = rd (p_Vl cur) l) /\
  ambe2450_pitch d (pitch2450 d) cur = Ok (set_Vl V (set_L L (set_w0 (w0_2450 (pitch2450 d)) cur)), u).
Proof.
  intros d cur Hd LV HV L. unfold ambe2450_pitch. cbv zeta. set (b0 := pitch2450 d) in *. unfold voicing2450. fold b0.
  pose proof (bits_at_range 49 d [4; 5; 6; 7; 35] Hd ltac:(positions)) as R1. change (2 ^ Z.of_nat (length [4; 5; 6; 7; 35])) with 32 in R1.
  fold (silence2450 b0). unfold w0_2450. destruct (silence2450 b0) eqn:ES.
  - assert (EL : (if b0 =? 124 then 15 else 14) = L).
    { unfold L, harmonics2450. unfold silence2450 in ES. destruct (Z.eqb_spec b0 124); [reflexivity|]. destruct (Z.eqb_spec b0 125); [reflexivity|discriminate ES]. }
    assert (RL : 14 <= L <= 15) by (rewrite <- EL; destruct (b0 =? 124); lia).
    rewrite EL. destruct (clear_vl_ok L (p_Vl cur) LV) as (V & E & L1 & V1 & V2); [lia|]. rewrite E. cbn [bind].
    rewrite (bits_msb_ok 49) by (exact Hd || (cbn; lia) || positions). cbn [bind]. fields.
    match goal with |- context [for_up 1 (L + 1) ?f V] => destruct (for_up_ok0 (fun X => X = V) f 1 (L + 1) V) as (X & EX & ->) end; [|reflexivity|].
    { intros k s Hk ->. destruct (silence_bands k) as [j ->]; [lia|]. cbn [bind]. eauto. }
    rewrite EX. cbn [bind]. exists V, (unvoiced_scale silence_w0_2450). split; [exact L1|]. split; [exact V1|]. split; [exact V2|]. reflexivity.
  - assert (HB : 0 <= b0 < 120) by (destruct HV as [H|[H|H]]; [exact H|rewrite H in ES; discriminate ES|rewrite H in ES; discriminate ES]).
    destruct (codes2450 b0 HB) as (E & RL & HF). fold L in E, RL, HF.
    rewrite (rd_nth AmbeW0table b0 fzero) by (change (Z.of_nat (length AmbeW0table)) with 120; lia). cbn [bind].
    rewrite (rd_nth AmbeLtable b0 fzero) by (change (Z.of_nat (length AmbeLtable)) with 120; lia). cbn [bind]. rewrite E. cbn [bind].
    set (f0 := nth (Z.to_nat b0) AmbeW0table fzero) in *. fields.
    rewrite (bits_msb_ok 49) by (exact Hd || (cbn; lia) || positions). cbn [bind].
    destruct (vuv_loop_ok AmbeVuv 32 (bits_at d [4; 5; 6; 7; 35]) f0 L (p_Vl cur)) as (V & EV & L1 & V1 & V2);
      [apply shape_b_ok; vm_compute; reflexivity|lia|exact LV|lia|exact HF|].
    rewrite EV. cbn [bind]. eexists V, _. split; [exact L1|]. split; [exact V1|]. split; [exact V2|]. reflexivity.
Qed.
Lemma ambe2450_run : forall o d cur prev e, is_bits 49 d -> length (p_Vl cur) = 57%nat -> ~ (tone2450 d /\ e < 6) -> voice2450 (pitch2450 d) ->
  let L := harmonics2450 (pitch2450 d) in exists V u Tl, length V = 57%nat /\ length Tl = 57%nat /\ (forall l, 1 <= l <= L -> rd V l = Ok (voicing2450 d l)) /\ (forall l, l < 1 \/ L < l -> rd V l = rd (p_Vl cur) l) /\
  mbe_decodeAmbe2450ParmsInternal o d cur prev e =
    (prev' <- ambe_extend_prev L prev ;;
     cur' <- ambe_predict o u L prev' Tl (set_gamma (fadd (gain2450 d) (fmul fhalf (p_gamma prev))) (set_Vl V (set_L L (set_w0 (w0_2450 (pitch2450 d)) (set_repeat (p_repeat prev) cur))))) ;;
     Ok (0, cur', prev')).
Proof.
  intros o d cur prev e Hd LV NT HV L. unfold mbe_decodeAmbe2450ParmsInternal. destruct (tone_verified_ok d Hd) as (tv & -> & HT). cbn [bind]. cbv zeta.
  rewrite (bits_msb_ok 49) by (exact Hd || (cbn; lia) || positions). cbn [bind]. fold (pitch2450 d).
  destruct (tv && (e <? 6)) eqn:ET.
  { exfalso. apply NT. apply andb_true_iff in ET as [A B]. split; [apply HT, A|lia]. }
  destruct ((120 <=? pitch2450 d) && (pitch2450 d <=? 123)) eqn:E1; [unfold voice2450 in HV; lia|].
  destruct ((pitch2450 d =? 126) || (pitch2450 d =? 127)) eqn:E2; [unfold voice2450 in HV; lia|].
  destruct (ambe2450_pitch_ok d (set_repeat (p_repeat prev) cur) Hd LV HV) as (V & u & L1 & V1 & V2 & EP). fields. rewrite EP. cbn [bind]. fold L in V1, V2 |- *.
  do 7 (rewrite (bits_msb_ok 49) by (exact Hd || (cbn; lia) || positions); cbn [bind]).
  destruct (amplitudes_run o tables2450 32 32 16 16 8 u L (bits_at d [8; 9; 10; 11; 36]) (bits_at d [12; 13; 14; 15; 16; 17; 18; 19; 40]) (bits_at d [20; 21; 22; 23; 41; 42; 43])
    (bits_at d [24; 25; 26; 27; 44]) (bits_at d [28; 29; 30; 45]) (bits_at d [31; 32; 33; 46]) (bits_at d [34; 47; 48]) (set_Vl V (set_L L (set_w0 (w0_2450 (pitch2450 d)) (set_repeat (p_repeat prev) cur)))) prev
    codebooks2450 (harmonics2450_range _ HV)) as (Tl & L2 & EA);
    try (match goal with |- 0 <= bits_at d ?ps < _ => exact (bits_at_range 49 d ps Hd ltac:(positions)) end).
  fields. rewrite EA. exists V, u, Tl. split; [exact L1|]. split; [exact L2|]. split; [exact V1|]. split; [exact V2|].
  change (nth (Z.to_nat (bits_at d [8; 9; 10; 11; 36])) (at_Dg tables2450) fzero) with (gain2450 d).
  destruct (ambe_extend_prev L prev) as [p|]; [|reflexivity]. cbn [bind].
  match goal with |- context [ambe_predict ?o ?u ?L ?p ?T ?c] => destruct (ambe_predict o u L p T c) end; reflexivity.
Qed.
Lemma ambe2450_tone : forall o d cur prev e, is_bits 49 d -> tone2450 d -> e < 6 ->
  mbe_decodeAmbe2450ParmsInternal o d cur prev e = Ok (7, set_repeat (p_repeat prev) cur, prev).
Proof.
  intros o d cur prev e Hd HT He. unfold mbe_decodeAmbe2450ParmsInternal. destruct (tone_verified_ok d Hd) as (tv & -> & B). cbn [bind]. cbv zeta.
  rewrite (bits_msb_ok 49) by (exact Hd || (cbn; lia) || positions). cbn [bind]. apply B in HT. subst tv. destruct (Z.ltb_spec e 6); [reflexivity|lia].
Qed.
Lemma ambe2450_erasure : forall o d cur prev e, is_bits 49 d -> ~ (tone2450 d /\ e < 6) -> erasure2450 (pitch2450 d) ->
  mbe_decodeAmbe2450ParmsInternal o d cur prev e = Ok (2, set_repeat (p_repeat prev) cur, prev).
Proof.
  intros o d cur prev e Hd NT HE. unfold mbe_decodeAmbe2450ParmsInternal. destruct (tone_verified_ok d Hd) as (tv & -> & B). cbn [bind]. cbv zeta.
  rewrite (bits_msb_ok 49) by (exact Hd || (cbn; lia) || positions). cbn [bind]. fold (pitch2450 d).
  destruct (tv && (e <? 6)) eqn:ET. { exfalso. apply NT. apply andb_true_iff in ET as [A C]. split; [apply B, A|lia]. }
  destruct ((120 <=? pitch2450 d) && (pitch2450 d <=? 123)) eqn:E1; [reflexivity|].
  destruct ((pitch2450 d =? 126) || (pitch2450 d =? 127)) eqn:E2; [reflexivity|]. unfold erasure2450 in HE. lia.
Qed.
Lemma not_erasure_voice : forall d, is_bits 49 d -> ~ erasure2450 (pitch2450 d) -> voice2450 (pitch2450 d).
Proof. intros d Hd H. pose proof (pitch2450_range d Hd). unfold erasure2450, voice2450 in *. lia. Qed.
Lemma ambe2450_accepted : forall o d cur prev e bad cur' prev', is_bits 49 d -> length (p_Vl cur) = 57%nat -> ~ (tone2450 d /\ e < 6) -> ~ erasure2450 (pitch2450 d) ->
  mbe_decodeAmbe2450ParmsInternal o d cur prev e = Ok (bad, cur', prev') ->
  bad = 0 /\ ambe_accepted (harmonics2450 (pitch2450 d)) (w0_2450 (pitch2450 d)) (gain2450 d) (voicing2450 d) cur prev cur' prev'.
Proof.
  intros o d cur prev e bad cur' prev' Hd LV NT NE H. destruct (ambe2450_run o d cur prev e Hd LV NT (not_erasure_voice d Hd NE)) as (V & u & Tl & L1 & L2 & V1 & V2 & E).
  rewrite E in H. apply bind_inv in H as (p & E1 & H). apply bind_inv in H as (c & E2 & H). injection H as <- <- <-. split; [reflexivity|].
  eapply ambe_finish; [exact V1| |exact E1|exact E2]. split; [congruence|exact V2].
Qed.
Lemma ambe2450_total : forall o d cur prev e, is_bits 49 d -> wf_parms cur -> ~ (tone2450 d /\ e < 6) -> ~ erasure2450 (pitch2450 d) -> prev_ok (harmonics2450 (pitch2450 d)) prev ->
  exists bad cur' prev', mbe_decodeAmbe2450ParmsInternal o d cur prev e = Ok (bad, cur', prev').
Proof.
  intros o d cur prev e Hd WC NT NE [WP LP]. pose proof (not_erasure_voice d Hd NE) as HV. pose proof (harmonics2450_range _ HV) as HL.
  destruct (ambe2450_run o d cur prev e Hd) as (V & u & Tl & L1 & L2 & V1 & V2 & ->); [apply WC|exact NT|exact HV|].
  set (L := harmonics2450 (pitch2450 d)) in *.
  destruct (ambe_extend_total L prev WP) as (p1 & -> & B & S); [lia|lia|]. cbn [bind].
  match goal with |- context [ambe_predict o u L p1 Tl ?c] => destruct (ambe_predict_total o u L p1 Tl c) as (c1 & -> & _) end; [| |lia|exact L2|].
  - split; [eapply but_logs_wf; eassumption|]. rewrite B. exact LP.
  - destruct WC as (W1 & W). split; [exact L1|exact W].
  - cbn [bind]. eauto.
Qed.
Lemma ambe2450_oob : forall o d cur prev e, is_bits 49 d -> length (p_Vl cur) = 57%nat -> ~ (tone2450 d /\ e < 6) -> ~ erasure2450 (pitch2450 d) ->
  wf_parms prev -> p_L prev = 56 -> safe56 (harmonics2450 (pitch2450 d)) = false -> mbe_decodeAmbe2450ParmsInternal o d cur prev e = UB OOB.
Proof.
  intros o d cur prev e Hd LV NT NE WP LP SF. pose proof (not_erasure_voice d Hd NE) as HV. pose proof (harmonics2450_range _ HV) as HL.
  destruct (ambe2450_run o d cur prev e Hd LV NT HV) as (V & u & Tl & L1 & L2 & V1 & V2 & ->). set (L := harmonics2450 (pitch2450 d)) in *.
  destruct (ambe_extend_total L prev WP) as (p1 & -> & B & S); [lia|lia|]. cbn [bind]. unfold ambe_predict. cbv zeta.
  rewrite sum43_oob; [reflexivity|eapply but_logs_wf; eassumption|rewrite B; exact LP|lia|exact SF].
Qed.
