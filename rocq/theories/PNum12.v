(* Frames with small codebook entries are tame; the correctly rounded library. *)
From Coq Require Import ZArith Reals Lra Lia List Bool.
From Verif Require Import Res F32 TabAmbe2450 TabAmbe2400 MFrame MParms MFft MSynth MAmbe SpecEcc SpecFrame SpecAmbe SpecAmp SpecState SpecMachine SpecAmbeMachine SpecBound SpecLoud SpecTrig SpecEnh2 SpecFftErr SpecNum SpecNum2
  PBase PFloat PDec PArr PReal PExp2 PPredict PAmp PConv PResid PResid2 PBound PBound2 PFftF32 PIdeal PNum8 PMachine PStream PAmbeMachine PAmbeStream.
From Flocq Require Import Core.Core.
Import ListNotations.
Local Open Scope R_scope.

Lemma exponents_small : forallb (fun b => let x := exponent2400 b in ffb x && fle (f_of_Z (-8)) x && fle x (f_of_Z 0)) (zrange 126) = true.
Proof. vm_compute. reflexivity. Qed.
Lemma ideal_fine : forall cosd sind r, fine_exp2 (with_pffft cosd sind ideal) r.
Proof.
  intros cosd sind [|]; [exact I|]. intros b Hb. pose proof (zrange_forallb 126 _ exponents_small b ltac:(lia)) as G. cbv beta zeta in G. apply andb_true_iff in G as [G G3]. apply andb_true_iff in G as [G1 G2].
  apply ffb_ff in G1. destruct (of_Z_R (-8)) as [A1 A2]; [lia|]. destruct (of_Z_R 0) as [B1 B2]; [lia|]. apply fle_true in G2; [|assumption|assumption]. apply fle_true in G3; [|assumption|assumption].
  unfold exp2_fine. change (exp2f (with_pffft cosd sind ideal)) with (exp2f ideal). apply ideal_exp2. apply Rabs_le. lra.
Qed.
Lemma ideal_log2 : forall cosd sind, log2_three_six (with_pffft cosd sind ideal).
Proof.
  intros cosd sind L HL. change (log2f (with_pffft cosd sind ideal) (f_of_Z L)) with (f_canon (fl (ln (R_of (f_of_Z L)) / ln 2))). rewrite canon_id by apply fl_vf.
  destruct (of_Z_R L) as [_ EL]; [lia|]. rewrite EL. assert (L2 : 0 < ln 2) by (rewrite <- ln_1; apply ln_increasing; lra).
  assert (L1 : 9 <= IZR L <= 56) by (split; apply IZR_le; lia).
  assert (P : forall k, 2 ^ k > 0 -> ln (2 ^ k) = INR k * ln 2) by (intros k _; apply ln_pow; lra).
  assert (LO : 3 * ln 2 <= ln (IZR L)). { replace (3 * ln 2) with (ln (2 ^ 3)) by (rewrite P by lra; cbn; lra). apply Rlt_le, ln_increasing; lra. }
  assert (HI : ln (IZR L) <= 6 * ln 2). { replace (6 * ln 2) with (ln (2 ^ 6)) by (rewrite P by lra; cbn; lra). apply Rlt_le, ln_increasing; lra. }
  assert (Q : 3 <= ln (IZR L) / ln 2 <= 6). { split; apply (Rmult_le_reg_r (ln 2)); auto; unfold Rdiv; rewrite Rmult_assoc, Rinv_l by lra; lra. }
  destruct (of_Z_R 3) as [A1 A2]; [lia|]. destruct (of_Z_R 6) as [B1 B2]; [lia|]. destruct (fl_R (ln (IZR L) / ln 2)) as [F E]; [apply in_max; unfold huge; rewrite Rabs_pos_eq; lra|]. split; [exact F|]. rewrite E.
  assert (K : R_of (f_of_Z 3) <= rndf (ln (IZR L) / ln 2) <= R_of (f_of_Z 6)) by (apply (rnd_between 24 128 Hp24); [apply A1|apply B1|rewrite A2, B2; exact Q]). rewrite A2, B2 in K. exact K.
Qed.

(* sums of the sizes of codebook rows, in units of 2^-30 *)
Lemma rows_residual : forall r o L d a b w l, cosine_in_unit o -> (9 <= L <= 56)%Z ->
  (exists p q, vector r d = ambe_gain p q /\ length p = 3%nat /\ length q = 4%nat /\ Forall ff p /\ Forall ff q /\ (row_ub p <= a)%Z /\ (row_ub q <= b)%Z) ->
  (forall i, (1 <= i <= 4)%Z -> length (higher r d i) = 4%nat /\ Forall ff (higher r d i) /\ (row_ub (higher r d i) <= w)%Z) -> (0 <= 2 * (a + b) + 786432 <= 2 ^ 34)%Z -> (0 <= w <= 2 ^ 34)%Z ->
  bnd (ambe_residual o (block r L) (vector r d) (higher r d) l) (141424 * (2 * (a + b) + 786432) / 100000 + 2 * w + 2000000).
Proof.
  intros r o L d a b w l CO HL (p & q & EV & LP & LQ & FP & FQ & RP & RQ) HH GA W. destruct (vector_bnd p q a b LP LQ FP FQ RP RQ) as [V1 V2]. rewrite <- EV in V1, V2.
  exact (ambe_residual_bnd o (block r L) (vector r d) (higher r d) _ w l CO (fun i => block_range r L i HL) V1 V2 GA HH W).
Qed.
Definition bits2450 : list Z := [0; 1; 1; 1; 0; 0; 1; 0; 1; 0; 1; 0; 0; 0; 1; 0; 1; 1; 0; 1; 0; 1; 0; 0; 0; 0; 0; 1; 1; 0; 0; 0; 0; 1; 1; 1; 0; 1; 0; 0; 0; 1; 0; 0; 0; 0; 1; 1; 1]%Z.
Definition bits2400 : list Z := [0; 1; 1; 1; 1; 0; 1; 0; 1; 0; 0; 0; 1; 1; 0; 0; 1; 1; 0; 0; 1; 1; 1; 1; 0; 1; 0; 0; 1; 1; 1; 0; 0; 1; 0; 1; 0; 0; 0; 1; 0; 1; 0; 0; 1; 0; 1; 0; 0]%Z.
Definition example_bits (r : codec) : list Z := match r with R2450 => bits2450 | R2400 => bits2400 end.
Definition row_fine (n : nat) (b : Z) (x : list f32) : bool := Nat.eqb (length x) n && forallb ffb x && (row_ub x <=? b)%Z.
Lemma row_fine_ok : forall n b x, row_fine n b x = true -> length x = n /\ Forall ff x /\ (row_ub x <= b)%Z.
Proof.
  intros n b x H. unfold row_fine in H. apply andb_true_iff in H as [H H3]. apply andb_true_iff in H as [H1 H2]. apply Nat.eqb_eq in H1. apply Z.leb_le in H3. split; [exact H1|]. split; [|exact H3].
  apply Forall_forall. intros y Hy. apply ffb_ff. rewrite forallb_forall in H2. apply H2, Hy.
Qed.
(* rows of sums at most 0.2, 0.2 and 0.4; gain step at most 4; 9 to 55 harmonics *)
Lemma example_rows : forallb (fun r => let d := example_bits r in
    (match r with R2450 => row_fine 3 214748364 (row AmbePRBA24 (bits_at d [12; 13; 14; 15; 16; 17; 18; 19; 40]%Z)) && row_fine 4 214748364 (row AmbePRBA58 (bits_at d [20; 21; 22; 23; 41; 42; 43]%Z))
                | R2400 => row_fine 3 214748364 (row AmbePlusPRBA24 (bits_at d [10; 11; 12; 13; 14; 15; 16; 44; 45]%Z)) && row_fine 4 214748364 (row AmbePlusPRBA58 (bits_at d [17; 18; 19; 20; 21; 46; 47]%Z)) end)
    && forallb (fun i => row_fine 4 429496729 (higher r d i)) [1; 2; 3; 4]%Z && fle (gain_step r d) (f_of_Z 4) && (9 <=? harmonics r d)%Z && (harmonics r d <=? 55)%Z && forallb (fun b => (b =? 0)%Z || (b =? 1)%Z) d && Nat.eqb (length d) 49) [R2450; R2400] = true.
Proof. vm_compute. reflexivity. Qed.
Lemma example_within : forall o r n c0 k uv buf, cosine_in_unit o -> ambe_within o r (-1.94) 1.94 4 (mkambe_call (example_bits r) n c0 k uv buf).
Proof.
  intros o r n c0 k uv buf CO _. cbn [ac_bits]. pose proof example_rows as G. rewrite forallb_forall in G. specialize (G r ltac:(destruct r; [left|right; left]; reflexivity)). cbv beta zeta in G.
  apply andb_true_iff in G as [G G7]. apply andb_true_iff in G as [G G6]. apply andb_true_iff in G as [G G5]. apply andb_true_iff in G as [G G4]. apply andb_true_iff in G as [G G3]. apply andb_true_iff in G as [G1 G2].
  apply Z.leb_le in G4, G5. assert (HB : is_bits 49 (example_bits r)).
  { split; [apply Nat.eqb_eq, G7|]. apply Forall_forall. intros x Hx. rewrite forallb_forall in G6. specialize (G6 x Hx). unfold is_bit. lia. }
  destruct (of_Z_R 4) as [F1 F2]; [lia|]. assert (ST : gain_step r (example_bits r) = gstep r (example_bits r)) by (destruct r; reflexivity).
  split. { apply fle_true in G3; [lra|rewrite ST; apply (gstep_small r _ HB)|exact F1]. }
  intros l Hl. assert (HL : (9 <= harmonics r (example_bits r) <= 56)%Z) by lia.
  assert (RE : residual o r (example_bits r) l = ambe_residual o (block r (harmonics r (example_bits r))) (vector r (example_bits r)) (higher r (example_bits r)) l) by (destruct r; reflexivity).
  rewrite RE. assert (B : bnd (ambe_residual o (block r (harmonics r (example_bits r))) (vector r (example_bits r)) (higher r (example_bits r)) l) (141424 * (2 * (214748364 + 214748364) + 786432) / 100000 + 2 * 429496729 + 2000000)).
  { apply rows_residual; [exact CO|exact HL| | |split; vm_compute; discriminate|split; vm_compute; discriminate].
    - clear - G1. generalize dependent (example_bits r). intros d G1. destruct r; apply andb_true_iff in G1 as [A B]; apply row_fine_ok in A as (A1 & A2 & A3); apply row_fine_ok in B as (B1 & B2 & B3); eexists _, _; (split; [reflexivity|]); auto 10.
    - intros i Hi. rewrite forallb_forall in G2. apply row_fine_ok, G2. cbn [In]. lia. }
  apply bnd_abs in B. apply Rabs_le_inv in B. change (141424 * (2 * (214748364 + 214748364) + 786432) / 100000 + 2 * 429496729 + 2000000)%Z with 2076928566%Z in B. unfold unit30 in B. lra.
Qed.
Definition example (r : codec) (n : Z) : ambe_call := mkambe_call (example_bits r) n 0 false 3 quiet.
Lemma example_ok : forall r n, (0 <= n <= 20)%Z -> ambe_ok (example r n) /\ few_bands r (example r n) /\ (ac_errors (example r n) <= 20)%Z.
Proof.
  intros r n Hn. pose proof example_rows as G. rewrite forallb_forall in G. specialize (G r ltac:(destruct r; [left|right; left]; reflexivity)). cbv beta zeta in G.
  apply andb_true_iff in G as [G G7]. apply andb_true_iff in G as [G G6]. apply andb_true_iff in G as [_ G5].
  split; [|split; [intros _; apply Z.leb_le, G5|cbn; lia]]. split; [|split; [cbn; lia|reflexivity]]. split; [apply Nat.eqb_eq, G7|]. apply Forall_forall. intros x Hx. rewrite forallb_forall in G6. specialize (G6 x Hx). unfold is_bit. lia.
Qed.
Lemma example_tame : ambe_tame (-1.94) 1.94 4.
Proof. unfold ambe_tame. lra. Qed.
