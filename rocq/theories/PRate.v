(* Proofs about the filters whose products may be fused. *)
From Coq Require Import ZArith List Bool Lia Reals Lra.
From Verif Require Import Res F32 Build MParms MSse MAdaptive MUnvoiced MImbe MFma MRate SpecEcc SpecFrame SpecState SpecAmp SpecImbe SpecMachine SpecFma SpecRate PBase PRun PArr PState PConv PImbe PFloat PReal PEnh3 PSpeech PMachine PFma.
From Flocq Require Import Core.Core IEEE754.BinarySingleNaN.
Import ListNotations.
Local Open Scope R_scope.

Lemma u24_val : u24 = 5.9604644775390625e-8.
Proof. unfold u24. lra. Qed.
Lemma mix_e : forall k i a b c d P Q, ff a -> ff b -> ff c -> ff d -> Rabs (R_of a * R_of b) <= P -> Rabs (R_of c * R_of d) <= Q -> P + Q <= 1e36 ->
  ff (mix_c k i a b c d) /\ Rabs (R_of (mix_c k i a b c d) - (R_of a * R_of b + R_of c * R_of d)) <= 2.01 * (u24 * (P + Q)) + 4 * tiny.
Proof.
  intros k i a b c d P Q A B C D HP HQ S. set (p := R_of a * R_of b) in *. set (q := R_of c * R_of d) in *.
  pose proof (Rabs_pos p) as P0. pose proof (Rabs_pos q) as Q0. pose proof tiny_40 as T. pose proof tiny_pos as T0.
  assert (Uv := u24_val). assert (U : 0 < u24 <= 6e-8) by (rewrite Uv; lra).
  assert (UP : 0 <= u24 * P <= 6e-8 * P) by (split; [apply Rmult_le_pos; lra|apply Rmult_le_compat_r; lra]).
  assert (UQ : 0 <= u24 * Q <= 6e-8 * Q) by (split; [apply Rmult_le_pos; lra|apply Rmult_le_compat_r; lra]).
  destruct (fmul_e a b A B) as [FP EP]; [fold p; unfold huge; lra|]. destruct (fmul_e c d C D) as [FQ EQ]; [fold q; unfold huge; lra|]. fold p in EP. fold q in EQ.
  set (x := fmul a b) in *. set (y := fmul c d) in *.
  assert (KP : u24 * Rabs p <= u24 * P) by (apply Rmult_le_compat_l; lra). assert (KQ : u24 * Rabs q <= u24 * Q) by (apply Rmult_le_compat_l; lra).
  assert (XS : Rabs (R_of x) <= P + u24 * P + tiny). { replace (R_of x) with ((R_of x - p) + p) by ring. eapply Rle_trans; [apply Rabs_triang|]. lra. }
  assert (YS : Rabs (R_of y) <= Q + u24 * Q + tiny). { replace (R_of y) with ((R_of y - q) + q) by ring. eapply Rle_trans; [apply Rabs_triang|]. lra. }
  assert (fin : forall z w e, Rabs w <= P + Q + (u24 * P + u24 * Q) + 2 * tiny -> Rabs (z - w) <= u24 * Rabs w + tiny -> Rabs (w - (p + q)) <= e -> e <= u24 * P + u24 * Q + 2 * tiny ->
    Rabs (z - (p + q)) <= 2.01 * (u24 * (P + Q)) + 4 * tiny).
  { intros z w e Hw Hz He Hb. assert (W : u24 * Rabs w <= u24 * (P + Q + (u24 * P + u24 * Q) + 2 * tiny)) by (apply Rmult_le_compat_l; lra).
    assert (W2 : u24 * (u24 * P + u24 * Q) <= 6e-8 * (u24 * P + u24 * Q)) by (apply Rmult_le_compat_r; lra). assert (W3 : u24 * tiny <= 6e-8 * tiny) by (apply Rmult_le_compat_r; lra).
    replace (z - (p + q)) with ((z - w) + (w - (p + q))) by ring. eapply Rle_trans; [apply Rabs_triang|]. lra. }
  unfold mix_c, macc. fold x y. destruct (k 20%Z i); [|destruct (k 21%Z i)].
  - assert (W : Rabs (R_of y + p) <= P + Q + (u24 * P + u24 * Q) + 2 * tiny) by (eapply Rle_trans; [apply Rabs_triang|]; lra).
    destruct (ffma_e a b y A B FQ) as [F E]; [fold p; unfold huge; lra|fold p; unfold huge; lra|]. fold p in E. split; [exact F|].
    apply (fin _ (R_of y + p) (u24 * Q + tiny) W E); [|lra]. replace (R_of y + p - (p + q)) with (R_of y - q) by ring. lra.
  - assert (W : Rabs (R_of x + q) <= P + Q + (u24 * P + u24 * Q) + 2 * tiny) by (eapply Rle_trans; [apply Rabs_triang|]; lra).
    destruct (ffma_e c d x C D FP) as [F E]; [fold q; unfold huge; lra|fold q; unfold huge; lra|]. fold q in E. split; [exact F|].
    apply (fin _ (R_of x + q) (u24 * P + tiny) W E); [|lra]. replace (R_of x + q - (p + q)) with (R_of x - p) by ring. lra.
  - assert (W : Rabs (R_of x + R_of y) <= P + Q + (u24 * P + u24 * Q) + 2 * tiny) by (eapply Rle_trans; [apply Rabs_triang|]; lra).
    destruct (fadd_e x y FP FQ) as [F E]; [unfold huge; lra|]. split; [exact F|].
    apply (fin _ (R_of x + R_of y) (u24 * P + u24 * Q + 2 * tiny) W E); [|lra]. replace (R_of x + R_of y - (p + q)) with ((R_of x - p) + (R_of y - q)) by ring.
    eapply Rle_trans; [apply Rabs_triang|]. lra.
Qed.

(* one step of a filter: x follows r up to D; B bounds the values *)
Lemma filter_step : forall k i a c C x y r B D, ff a -> ff c -> ff x -> ff y -> Rabs (R_of a - 0.95) <= u24 -> Rabs (R_of c - C) <= u24 * C -> 0 <= C <= 1 ->
  0 <= r <= B -> 0 <= R_of y -> 0.95 * r + C * R_of y <= B -> 1e-6 <= B <= 1e35 -> Rabs (R_of x - r) <= D -> 75 * (u24 * B) <= D <= B ->
  ff (mix_c k i a x c y) /\ Rabs (R_of (mix_c k i a x c y) - (0.95 * r + C * R_of y)) <= D.
Proof.
  intros k i a c C x y r B D FA FC FX FY EA EC HC HR HY S HB E HD. set (s := R_of y) in *. pose proof tiny_40 as T. pose proof tiny_pos as T0.
  assert (Uv := u24_val). assert (U : 0 < u24 <= 6e-8) by (rewrite Uv; lra). assert (UB : 0 <= u24 * B <= 6e-8 * B) by (split; [apply Rmult_le_pos; lra|apply Rmult_le_compat_r; lra]).
  assert (UD : 0 <= u24 * D <= 6e-8 * D) by (split; [apply Rmult_le_pos; lra|apply Rmult_le_compat_r; lra]).
  assert (CS : 0 <= C * s) by (apply Rmult_le_pos; lra). assert (UC : 0 <= u24 * (C * s) <= u24 * B) by (split; [apply Rmult_le_pos; lra|apply Rmult_le_compat_l; lra]).
  assert (UR : 0 <= u24 * r <= u24 * B) by (split; [apply Rmult_le_pos; lra|apply Rmult_le_compat_l; lra]).
  assert (EP : Rabs (R_of a * R_of x - 0.95 * r) <= 0.95 * D + u24 * D + u24 * r).
  { replace (R_of a * R_of x - 0.95 * r) with (0.95 * (R_of x - r) + ((R_of a - 0.95) * (R_of x - r) + (R_of a - 0.95) * r)) by ring.
    eapply Rle_trans; [apply Rabs_triang|]. rewrite Rabs_mult, (Rabs_right 0.95) by lra. pose proof (Rabs_triang ((R_of a - 0.95) * (R_of x - r)) ((R_of a - 0.95) * r)) as Q. rewrite !Rabs_mult in Q.
    assert (Q1 : Rabs (R_of a - 0.95) * Rabs (R_of x - r) <= u24 * D) by (apply Rmult_le_compat; auto using Rabs_pos).
    assert (Q2 : Rabs (R_of a - 0.95) * Rabs r <= u24 * r) by (rewrite (Rabs_right r) by lra; apply Rmult_le_compat_r; lra). lra. }
  assert (EQ : Rabs (R_of c * s - C * s) <= u24 * (C * s)).
  { replace (R_of c * s - C * s) with ((R_of c - C) * s) by ring. rewrite Rabs_mult, (Rabs_right s) by lra. rewrite <- Rmult_assoc. apply Rmult_le_compat_r; lra. }
  assert (HP : Rabs (R_of a * R_of x) <= 0.95 * r + (0.95 * D + u24 * D + u24 * r)).
  { replace (R_of a * R_of x) with ((R_of a * R_of x - 0.95 * r) + 0.95 * r) by ring. eapply Rle_trans; [apply Rabs_triang|]. rewrite (Rabs_right (0.95 * r)) by lra. lra. }
  assert (HQ : Rabs (R_of c * s) <= C * s + u24 * (C * s)).
  { replace (R_of c * s) with ((R_of c * s - C * s) + C * s) by ring. eapply Rle_trans; [apply Rabs_triang|]. rewrite (Rabs_right (C * s)) by lra. lra. }
  destruct (mix_e k i a x c y _ _ FA FX FC FY HP HQ) as [F M]; [lra|]. split; [exact F|]. fold s in M.
  set (z := R_of (mix_c k i a x c y)) in *. set (PQ := 0.95 * r + (0.95 * D + u24 * D + u24 * r) + (C * s + u24 * (C * s))) in *.
  assert (M2 : u24 * PQ <= u24 * B + 1.0001 * (u24 * D) + 0.0001 * (u24 * B)).
  { assert (PQ <= B + (0.95 * D + u24 * D + u24 * r) + u24 * (C * s)) by (unfold PQ; lra). apply (Rle_trans _ (u24 * (B + 1.0001 * D + 0.0001 * B))); [apply Rmult_le_compat_l; lra|lra]. }
  replace (z - (0.95 * r + C * s)) with ((z - (R_of a * R_of x + R_of c * s)) + ((R_of a * R_of x - 0.95 * r) + (R_of c * s - C * s))) by ring.
  eapply Rle_trans; [apply Rabs_triang|]. pose proof (Rabs_triang (R_of a * R_of x - 0.95 * r) (R_of c * s - C * s)).
  assert (TT : tiny <= 1e-20 * (u24 * B)). { rewrite Uv. lra. }
  assert (US : u24 * (0.95 * r + C * s) <= u24 * B) by (apply Rmult_le_compat_l; lra). lra.
Qed.

(* ---- error rates ---- *)
Definition close (x : f32) (r : R) : Prop := ff x /\ Rabs (R_of x - r) <= 1e-6.
Lemma rate_step : forall k i coef q b m n x r, ff coef -> Rabs (R_of coef - q) <= u24 * q -> 0 <= q <= 1 -> 0.1 <= b <= 0.13 -> q * IZR m <= 0.05 * b -> (0 <= m <= 100)%Z ->
  (0 <= n <= m)%Z -> 0 <= r <= b -> close x r -> close (error_rate_c k i coef x n) (real_rate q r n) /\ 0 <= real_rate q r n <= b.
Proof.
  intros k i coef q b m n x r FC EC HQ HB QM HM Hn HR [FX EX]. destruct (of_Z_R n ltac:(lia)) as [FN VN].
  assert (N : 0 <= IZR n <= IZR m) by (split; apply IZR_le; lia). assert (QN : 0 <= q * IZR n <= q * IZR m) by (split; [apply Rmult_le_pos; lra|apply Rmult_le_compat_l; lra]).
  assert (A : ff f_095) by (split; reflexivity). assert (EA : Rabs (R_of f_095 - 0.95) <= u24) by (rewrite u24_val; R_val f_095; unfold Rabs; destruct (Rcase_abs _); lra).
  unfold real_rate. split; [|lra]. unfold error_rate_c. rewrite <- VN in *.
  apply (filter_step k i f_095 coef q x (f_of_Z n) r b 1e-6); auto; rewrite ?u24_val; try lra.
Qed.
Lemma rates_close : forall k coef q b m ns i x r, ff coef -> Rabs (R_of coef - q) <= u24 * q -> 0 <= q <= 1 -> 0.1 <= b <= 0.13 -> q * IZR m <= 0.05 * b -> (0 <= m <= 100)%Z ->
  Forall (fun n => (0 <= n <= m)%Z) ns -> 0 <= r <= b -> close x r -> close (rates_c k i coef ns x) (real_rates q ns r).
Proof.
  intros k coef q b m ns. induction ns as [|n ns IH]; intros i x r FC EC HQ HB QM HM F HR C; [exact C|]. cbn [rates_c]. unfold real_rates. cbn [fold_left].
  destruct (rate_step k i coef q b m n x r FC EC HQ HB QM HM (Forall_inv F) HR C) as [C' R']. apply IH; auto. exact (Forall_inv_tail F).
Qed.
Lemma coef_imbe : ff f_365em6 /\ Rabs (R_of f_365em6 - 0.000365) <= u24 * 0.000365.
Proof. split; [split; reflexivity|]. rewrite u24_val. R_val f_365em6. unfold Rabs. destruct (Rcase_abs _); lra. Qed.
Lemma coef_ambe : ff f_1064em6 /\ Rabs (R_of f_1064em6 - 0.001064) <= u24 * 0.001064.
Proof. split; [split; reflexivity|]. rewrite u24_val. R_val f_1064em6. unfold Rabs. destruct (Rcase_abs _); lra. Qed.
Lemma rates_imbe : forall k i ns, Forall (fun n => (0 <= n <= 15)%Z) ns -> let x := rates_c k i f_365em6 ns fzero in ff x /\ Rabs (R_of x - real_rates 0.000365 ns 0) <= 1e-6.
Proof.
  intros k i ns F. apply (rates_close k f_365em6 0.000365 0.11 15 ns i fzero 0); try apply coef_imbe; auto; try lra; try lia.
  split; [split; reflexivity|]. change (R_of fzero) with 0. rewrite Rminus_0_r, Rabs_R0. lra.
Qed.
Lemma rates_ambe : forall k i ns, Forall (fun n => (0 <= n <= 6)%Z) ns -> let x := rates_c k i f_1064em6 ns fzero in ff x /\ Rabs (R_of x - real_rates 0.001064 ns 0) <= 1e-6.
Proof.
  intros k i ns F. apply (rates_close k f_1064em6 0.001064 0.128 6 ns i fzero 0); try apply coef_ambe; auto; try lra; try lia.
  split; [split; reflexivity|]. change (R_of fzero) with 0. rewrite Rminus_0_r, Rabs_R0. lra.
Qed.

(* ---- local energy ---- *)
Lemma energies_close : forall k M ms i x r, 75000 <= M <= 1e35 -> Forall (loud M) ms -> ff x -> 10000 <= R_of x -> 10000 <= r <= M -> Rabs (R_of x - r) <= M / 100000 ->
  ff (energies_c k i ms x) /\ 10000 <= R_of (energies_c k i ms x) /\ Rabs (R_of (energies_c k i ms x) - real_energies (map R_of ms) r) <= M / 100000.
Proof.
  intros k M ms. induction ms as [|m ms IH]; intros i x r HM F FX LX HR E; [auto|]. cbn [energies_c map]. unfold real_energies. cbn [fold_left].
  pose proof (Forall_inv F) as [FM RM]. apply Forall_inv_tail in F.
  assert (FL : ff MIN_LOCAL_ENERGY) by (split; reflexivity). assert (VL : R_of MIN_LOCAL_ENERGY = 10000) by (R_val MIN_LOCAL_ENERGY; lra).
  assert (A : ff SMOOTH_ALPHA) by (split; reflexivity). assert (EA : Rabs (R_of SMOOTH_ALPHA - 0.95) <= u24) by (rewrite u24_val; R_val SMOOTH_ALPHA; unfold Rabs; destruct (Rcase_abs _); lra).
  assert (B : ff SMOOTH_BETA) by (split; reflexivity). assert (EB : Rabs (R_of SMOOTH_BETA - 0.05) <= u24 * 0.05) by (rewrite u24_val; R_val SMOOTH_BETA; unfold Rabs; destruct (Rcase_abs _); lra).
  destruct (filter_step k i SMOOTH_ALPHA SMOOTH_BETA 0.05 x m r M (M / 100000)) as [FZ EZ]; auto; try lra; [rewrite u24_val; lra|].
  set (z := mix_c k i SMOOTH_ALPHA x SMOOTH_BETA m) in *.
  assert (ES : smoothing_energy_c k i x m = if flt z MIN_LOCAL_ENERGY then MIN_LOCAL_ENERGY else z).
  { unfold smoothing_energy_c. cbv zeta. rewrite (proj2 (flt_false x _ FX FL)) by lra. reflexivity. }
  rewrite ES. assert (R' : 10000 <= real_energy r (R_of m) <= M) by (unfold real_energy; split; [apply Rmax_l|apply Rmax_lub; lra]).
  apply IH; auto.
  - destruct (flt z MIN_LOCAL_ENERGY); auto.
  - destruct (flt z MIN_LOCAL_ENERGY) eqn:Q; [lra|]. apply (flt_false z _ FZ FL) in Q. lra.
  - unfold real_energy. destruct (flt z MIN_LOCAL_ENERGY) eqn:Q; [apply (flt_true z _ FZ FL) in Q|apply (flt_false z _ FZ FL) in Q]; rewrite ?VL in *; revert EZ; unfold Rmax, Rabs; destruct (Rle_dec _ _); repeat destruct (Rcase_abs _); lra.
Qed.
Lemma energies_start : forall k i M ms, 75000 <= M <= 1e35 -> Forall (loud M) ms ->
  let x := energies_c k i ms DEFAULT_LOCAL_ENERGY in ff x /\ 10000 <= R_of x /\ Rabs (R_of x - real_energies (map R_of ms) 75000) <= M / 100000.
Proof.
  intros k i M ms HM F. assert (V : R_of DEFAULT_LOCAL_ENERGY = 75000) by (R_val DEFAULT_LOCAL_ENERGY; lra).
  apply energies_close; auto; rewrite ?V; try lra; [split; reflexivity|]. rewrite Rminus_diag_eq by reflexivity. rewrite Rabs_R0. lra.
Qed.

(* ---- decisions ---- *)
Definition entry_c (k : contraction) (i : Z) (n : Z) (cv : bool) (cur prev : parms) : parms :=
  let c := set_errorRate (error_rate_c k i f_365em6 (p_errorRate prev) n) (set_errorCountTotal n (set_mutingThreshold MUTING_IMBE cur)) in
  if cv then c else set_errorCount4 0 c.
Lemma decode_keeps : forall o d e prev bad c1 p1, is_bits 88 d -> wf_parms e -> wf_parms prev -> mbe_decodeImbe4400Parms o d e prev = Ok (bad, c1, p1) ->
  (bad = 1 <-> 207 < pitch7200 d)%Z /\ wf_parms c1 /\ wf_parms p1 /\
  p_errorRate c1 = p_errorRate e /\ p_mutingThreshold c1 = p_mutingThreshold e /\
  p_errorRate p1 = p_errorRate prev /\ p_mutingThreshold p1 = p_mutingThreshold prev /\ p_repeatCount p1 = p_repeatCount prev.
Proof.
  intros o d e prev bad c1 p1 Hd WE WP H. destruct (Z_lt_ge_dec 207 (pitch7200 d)) as [A|A].
  - rewrite imbe_decode_bad in H by assumption.
    assert (Q : bad = 1%Z /\ c1 = set_repeat (p_repeat prev) e /\ p1 = prev) by (injection H; auto). destruct Q as (-> & -> & ->).
    split; [tauto|]. split; [exact WE|]. split; [exact WP|]. repeat split.
  - destruct (imbe_decode_inv _ _ _ _ _ _ _ Hd ltac:(lia) (proj1 WE) H) as (-> & AC & EW).
    destruct AC as (E1 & _ & _ & _ & [S1 _] & [S2 _] & [S3 _] & E2 & [X1 _] & [X2 _] & E3).
    split; [lia|]. split; [|split].
    + unfold wf_parms in *. rewrite S1, S2, S3. rewrite E2. fields. tauto.
    + unfold wf_parms in *. rewrite X1, X2. rewrite E3. fields. tauto.
    + rewrite E2, E3. fields. repeat split.
Qed.
Definition repeats_c (k : contraction) (i : Z) (d : list Z) (n : Z) (x : f32) (c0 : Z) (cv : bool) : bool := imbe_repeat_required_c k i (if (207 <? pitch7200 d)%Z then 1 else 0)%Z n x c0 cv.
Lemma params_c_inv : forall k i o d n cur prev c0 cv c' p' rep mut, is_bits 88 d -> wf_parms cur -> wf_parms prev -> imbe_parameters_c k i o d n cur prev c0 cv = Ok (c', p', rep, mut) ->
  let x := error_rate_c k i f_365em6 (p_errorRate prev) n in
  rep = repeats_c k i d n x c0 cv /\ mut = (4 <=? p_repeatCount c')%Z || fgt (p_errorRate c') (p_mutingThreshold c') /\ wf_parms c' /\
  p_errorRate c' = (if rep then if (p_repeatCount prev <? 4)%Z then p_errorRate prev else x else x) /\
  p_repeatCount c' = (if rep then if (p_repeatCount prev <? 4)%Z then p_repeatCount prev + 1 else 0 else 0)%Z /\
  (p_mutingThreshold prev = MUTING_IMBE -> p_mutingThreshold c' = MUTING_IMBE).
Proof.
  intros k i o d n cur prev c0 cv c' p' rep mut Hd WC WP H x. unfold imbe_parameters_c in H. cbv zeta in H. fold x in H.
  set (e := if cv then _ else _) in H.
  assert (WE : wf_parms e) by (unfold e; destruct cv; exact WC). assert (RE : p_errorRate e = x) by (unfold e; now destruct cv). assert (ME : p_mutingThreshold e = MUTING_IMBE) by (unfold e; now destruct cv).
  apply bind_inv in H as ([[bad c1] p1] & HD & H). apply bind_inv in H as (c2 & HC & H).
  destruct (decode_keeps _ _ _ _ _ _ _ Hd WE WP HD) as (B & W1 & WP1 & R1 & M1 & R2 & M2 & Q2). rewrite R1, RE in HC, H. rewrite ME in M1.
  assert (RR : imbe_repeat_required_c k i bad n x c0 cv = repeats_c k i d n x c0 cv).
  { unfold repeats_c, imbe_repeat_required_c. destruct (Z.ltb_spec 207 (pitch7200 d)) as [A|A]; [rewrite (proj2 B A); reflexivity|]. destruct (Z.eqb_spec bad 1) as [E|E]; [apply B in E; lia|reflexivity]. }
  rewrite RR in HC, H. set (need := repeats_c k i d n x c0 cv) in *.
  assert (Q : c' = c2 /\ p' = p1 /\ rep = need /\ mut = mbe_isMaxFrameRepeat c2 || mbe_requiresMuting c2) by (injection H as <- <- <- <-; auto).
  destruct Q as (-> & -> & -> & ->). clear H. split; [reflexivity|]. split; [reflexivity|].
  apply imbe_conceal_inv in HC; [|exact W1]. unfold picked in HC. rewrite Q2 in HC. rewrite HC.
  destruct need; [destruct (p_repeatCount prev <? 4)%Z|]; cbn -[MUTING_IMBE]; fields; (split; [|repeat split; auto; congruence]).
  - exact WP1.
  - destruct W1 as (_ & _ & _ & U). unfold wf_parms, headroom. fields. repeat split; apply U.
  - exact W1.
Qed.
Lemma threshold_close : forall b x r, close x r -> 0 <= r <= 0.11 -> ff (macc b (f_of_Z 10) (f_of_Z 40) x) /\ Rabs (R_of (macc b (f_of_Z 10) (f_of_Z 40) x) - (10 + 40 * r)) <= 0.00005.
Proof.
  intros b x r [FX E] HR. destruct (of_Z_R 10 ltac:(lia)) as [F10 V10]. destruct (of_Z_R 40 ltac:(lia)) as [F40 V40]. pose proof tiny_40 as T. pose proof tiny_pos as T0. assert (Uv := u24_val).
  assert (X : -0.001 <= R_of x <= 0.12) by (revert E; unfold Rabs; destruct (Rcase_abs _); lra). set (v := R_of x) in *.
  assert (A1 : Rabs (40 * v) <= 5) by (unfold Rabs; destruct (Rcase_abs _); lra).
  assert (EV : Rabs (10 + 40 * v - (10 + 40 * r)) <= 0.00004) by (replace (10 + 40 * v - (10 + 40 * r)) with (40 * (v - r)) by ring; rewrite Rabs_mult, (Rabs_right 40) by lra; lra).
  unfold macc. destruct b.
  - destruct (ffma_e (f_of_Z 40) x (f_of_Z 10) F40 FX F10) as [F M]; rewrite ?V10, ?V40; fold v; try (unfold huge; lra).
    { apply Rle_trans with 15; [eapply Rle_trans; [apply Rabs_triang|]; rewrite (Rabs_right 10); lra|unfold huge; lra]. }
    split; [exact F|]. rewrite V10, V40 in M. fold v in M. assert (K : Rabs (10 + 40 * v) <= 15) by (eapply Rle_trans; [apply Rabs_triang|]; rewrite (Rabs_right 10); lra).
    set (y := R_of (ffma _ _ _)) in *. replace (y - (10 + 40 * r)) with ((y - (10 + 40 * v)) + (10 + 40 * v - (10 + 40 * r))) by ring. eapply Rle_trans; [apply Rabs_triang|]. rewrite Uv in M. lra.
  - destruct (fmul_e (f_of_Z 40) x F40 FX) as [F M]; [rewrite V40; fold v; unfold huge; lra|]. rewrite V40 in M. fold v in M. set (p := fmul (f_of_Z 40) x) in *.
    assert (P : Rabs (R_of p) <= 5.1). { replace (R_of p) with ((R_of p - 40 * v) + 40 * v) by ring. eapply Rle_trans; [apply Rabs_triang|]. rewrite Uv in M. lra. }
    assert (K : Rabs (10 + R_of p) <= 15.1) by (eapply Rle_trans; [apply Rabs_triang|]; rewrite (Rabs_right 10); lra).
    destruct (fadd_e (f_of_Z 10) p F10 F) as [F2 M2]; [rewrite V10; unfold huge; lra|]. rewrite V10 in M2. split; [exact F2|]. set (y := R_of (fadd _ _)) in *.
    replace (y - (10 + 40 * r)) with ((y - (10 + R_of p)) + ((R_of p - 40 * v) + (10 + 40 * v - (10 + 40 * r)))) by ring. eapply Rle_trans; [apply Rabs_triang|].
    pose proof (Rabs_triang (R_of p - 40 * v) (10 + 40 * v - (10 + 40 * r))). rewrite Uv in M, M2. lra.
Qed.
Lemma bool_iff : forall (a b : bool) P, (a = true <-> P) -> (b = true <-> P) -> a = b.
Proof. intros [] [] P A B; auto; [symmetry; apply B, A; reflexivity|apply A, B; reflexivity]. Qed.
Lemma repeats_decided : forall k i f x r, frame_ok f -> close x r -> 0 <= r <= 0.11 -> (e_c0 (event_of f) <> None -> 0.0001 < Rabs (10 + 40 * r - IZR (fc_errors f))) ->
  (repeats_c k i (fc_bits f) (fc_errors f) x (fc_c0 f) (fc_valid f) = true <-> must_repeat (event_of f) r).
Proof.
  intros k i f x r (_ & Hn & _) C HR HC. unfold repeats_c, imbe_repeat_required_c, must_repeat, event_of in *. cbn [e_bad e_errors e_c0] in *. unfold context in *.
  destruct (Z.ltb_spec 207 (pitch7200 (fc_bits f))) as [A|A]; cbn [Z.eqb Pos.eqb]; [tauto|].
  destruct (fc_valid f).
  - specialize (HC ltac:(discriminate)). destruct (threshold_close (k 22%Z i) x r C HR) as [FT ET]. destruct (of_Z_R (fc_errors f) ltac:(lia)) as [FN VN].
    set (t := macc _ _ _ _) in *. rewrite andb_true_iff, Z.leb_le. unfold fge. rewrite (fle_true t _ FT FN), VN.
    split; [intros [H1 H2]; right; split; [exact H1|]|intros [H|[H1 H2]]; [discriminate H|split; [exact H1|]]]; revert HC ET; unfold Rabs; repeat destruct (Rcase_abs _); lra.
  - rewrite Z.ltb_lt. split; [auto|intros [H|H]; [discriminate H|exact H]].
Qed.
Lemma frames_decided : forall k o fs i prev r q fl fl', Forall frame_ok fs -> wf_parms prev -> close (p_errorRate prev) r -> 0 <= r <= 0.11 -> p_mutingThreshold prev = MUTING_IMBE -> p_repeatCount prev = q ->
  imbe_frames_c k i o fs prev = Ok fl -> decided r q (map event_of fs) fl' -> fl = fl'.
Proof.
  intros k o fs. induction fs as [|f fs IH]; intros i prev r q fl fl' F WP C HR M Q H D.
  - inversion D. subst. cbn in H. now injection H.
  - cbn [imbe_frames_c map] in *. apply bind_inv in H as ([[[c p] rep] mut] & H1 & H). apply bind_inv in H as (rest & H2 & H). injection H as <-.
    pose proof (Forall_inv F) as FO. apply Forall_inv_tail in F. destruct FO as (Hd & Hn & Hw).
    destruct (params_c_inv _ _ _ _ _ _ _ _ _ _ _ _ _ Hd Hw WP H1) as (E1 & E2 & W & ER & EQ & EM). specialize (EM M).
    inversion D as [|r0 q0 e es rep0 mut0 fl0 r1 r' q' Hr1 HC Hrep Hq HG Hmut D']. subst r0 q0 e es fl'. clear D.
    destruct (rate_step k i f_365em6 0.000365 0.11 15 (fc_errors f) (p_errorRate prev) r) as [C1 R1]; try apply coef_imbe; auto; try lra; try lia.
    change (e_errors (event_of f)) with (fc_errors f) in *. rewrite <- Hr1 in C1, R1. set (x := error_rate_c k i f_365em6 (p_errorRate prev) (fc_errors f)) in *.
    assert (RR : rep = rep0). { rewrite E1. apply (bool_iff _ _ _ (repeats_decided k i f x r1 (conj Hd (conj Hn Hw)) C1 R1 HC) Hrep). } subst rep0.
    assert (K : close (p_errorRate c) r' /\ 0 <= r' <= 0.11 /\ p_repeatCount c = q').
    { rewrite ER, EQ, Q. destruct rep; [destruct (q <? 4)%Z|]; injection Hq as -> ->; auto. }
    destruct K as (C' & R' & Q').
    assert (MM : mut = mut0).
    { apply (bool_iff _ _ ((4 <= q')%Z \/ 0.0875 < r')); [|exact Hmut]. rewrite E2, EM, Q', orb_true_iff, Z.leb_le. assert (FT : ff MUTING_IMBE) by (split; reflexivity).
      unfold fgt. rewrite (flt_true _ _ FT (proj1 C')). destruct C' as [_ C']. assert (VT : Rabs (R_of MUTING_IMBE - 0.0875) <= 1e-8) by (R_val MUTING_IMBE; unfold Rabs; destruct (Rcase_abs _); lra).
      split; (intros [G|G]; [left; exact G|right]); revert C' VT HG; unfold Rabs; repeat destruct (Rcase_abs _); lra. }
    subst mut0. f_equal. apply (IH (i + 1)%Z c r' q'); auto.
Qed.
Lemma frames_start : forall k o fs prev fl fl', Forall frame_ok fs -> wf_parms prev -> p_errorRate prev = fzero -> p_mutingThreshold prev = MUTING_IMBE ->
  imbe_frames_c k 0 o fs prev = Ok fl -> decided 0 (p_repeatCount prev) (map event_of fs) fl' -> fl = fl'.
Proof.
  intros k o fs prev fl fl' F W E M H D. apply (frames_decided k o fs 0 prev 0 (p_repeatCount prev)); auto; try lra. rewrite E. split; [split; reflexivity|]. change (R_of fzero) with 0. rewrite Rminus_0_r, Rabs_R0. lra.
Qed.
Lemma unfused_rate : forall i coef x n, error_rate_c no_fusing i coef x n = error_rate coef x n.
Proof. reflexivity. Qed.
Lemma unfused_energy : forall i e m, smoothing_energy_c no_fusing i e m = smoothing_energy e m.
Proof. reflexivity. Qed.
Lemma unfused_parameters : forall i o d n cur prev c0 cv, imbe_parameters_c no_fusing i o d n cur prev c0 cv = imbe_parameters o d n cur prev c0 cv.
Proof. reflexivity. Qed.

(* ---- a stream on which two builds decide differently ---- *)
Definition quiet (n : Z) : frame_c := mkframe_c (repeat 0%Z 88) n 1 true imbe_initial.
Fixpoint mutes (k : contraction) (i : Z) (ns : list Z) (x : f32) : list (bool * bool) :=
  match ns with [] => [] | n :: ns => let x := error_rate_c k i f_365em6 x n in (false, fgt x MUTING_IMBE) :: mutes k (i + 1) ns x end.
Lemma initial_wf : wf_parms imbe_initial.
Proof. repeat split. Qed.
Lemma zero_bits : is_bits 88 (repeat 0%Z 88) /\ pitch7200 (repeat 0%Z 88) = 0%Z.
Proof. split; [split; [reflexivity|apply Forall_forall; intros b Hb; apply repeat_spec in Hb; subst; left; reflexivity]|reflexivity]. Qed.
Lemma quiet_step : forall k i o n prev, wf_parms prev -> (0 <= p_L prev <= 55)%Z -> p_mutingThreshold prev = MUTING_IMBE -> let x := error_rate_c k i f_365em6 (p_errorRate prev) n in
  exists c p, imbe_parameters_c k i o (repeat 0%Z 88) n imbe_initial prev 1 true = Ok (c, p, false, fgt x MUTING_IMBE) /\ wf_parms c /\ (0 <= p_L c <= 55)%Z /\ p_mutingThreshold c = MUTING_IMBE /\ p_errorRate c = x.
Proof.
  intros k i o n prev W L M x. destruct zero_bits as [Hd Hp]. unfold imbe_parameters_c. cbv zeta. fold x. set (e := set_errorRate _ _).
  assert (WE : wf_parms e) by exact initial_wf.
  destruct (imbe_decode_defined o _ e prev Hd WE) as (bad & c1 & p1 & HD); [rewrite Hp; lia|split; auto|]. rewrite HD. cbn [bind].
  destruct (decode_keeps _ _ _ _ _ _ _ Hd WE W HD) as (B & W1 & WP1 & R1 & M1 & _).
  destruct (imbe_decode_inv _ _ _ _ _ _ _ Hd ltac:(rewrite Hp; lia) (proj1 WE) HD) as (-> & (E1 & _) & _). rewrite Hp in E1.
  unfold imbe_repeat_required_c. cbn [Z.eqb Z.leb Z.compare Pos.compare Pos.compare_cont andb]. unfold imbe_conceal. cbn [bind].
  change (p_errorRate e) with x in R1. change (p_mutingThreshold e) with MUTING_IMBE in M1. exists (set_repeatCount 0 (set_repeat 0 c1)), p1. split.
  { unfold mbe_isMaxFrameRepeat, mbe_requiresMuting. fields. rewrite R1, M1. reflexivity. }
  split; [exact W1|]. split; [fields; rewrite E1; vm_compute; split; discriminate|]. fields. rewrite R1, M1. split; reflexivity.
Qed.
Lemma quiet_run : forall k o ns i prev, wf_parms prev -> (0 <= p_L prev <= 55)%Z -> p_mutingThreshold prev = MUTING_IMBE -> imbe_frames_c k i o (map quiet ns) prev = Ok (mutes k i ns (p_errorRate prev)).
Proof.
  intros k o ns. induction ns as [|n ns IH]; intros i prev W L M; [reflexivity|]. cbn [map imbe_frames_c quiet fc_bits fc_errors fc_cur fc_c0 fc_valid mutes].
  destruct (quiet_step k i o n prev W L M) as (c & p & -> & W' & L' & M' & R'). cbn [bind]. fold quiet. rewrite IH by assumption. cbn [bind]. rewrite R'. reflexivity.
Qed.
Definition close_call : list Z := repeat 13%Z 44 ++ [12; 11; 13; 13; 11; 13; 11; 13; 12; 13; 13; 13]%Z.
Lemma close_mutes : mutes all_fusing 0 close_call fzero = removelast (mutes no_fusing 0 close_call fzero) ++ [(false, true)] /\ last (mutes no_fusing 0 close_call fzero) (true, true) = (false, false).
Proof. split; vm_compute; reflexivity. Qed.
Lemma decisions_refuted : forall o, exists fs fl, Forall frame_ok fs /\ imbe_frames_c no_fusing 0 o fs imbe_initial = Ok (fl ++ [(false, false)]) /\ imbe_frames_c all_fusing 0 o fs imbe_initial = Ok (fl ++ [(false, true)]).
Proof.
  intros o. exists (map quiet close_call), (removelast (mutes no_fusing 0 close_call fzero)). destruct close_mutes as [A B].
  rewrite !quiet_run by (exact initial_wf || reflexivity || (cbn; lia)). change (p_errorRate imbe_initial) with fzero. split; [|split; [apply (f_equal (@Ok _))|apply (f_equal (@Ok _)); exact A]].
  - apply Forall_forall. intros f Hf. apply in_map_iff in Hf as (n & <- & Hn). split; [apply zero_bits|]. split; [|exact initial_wf]. cbn [quiet fc_errors].
    apply in_app_iff in Hn as [Hn|Hn]; [apply repeat_spec in Hn; lia|]. cbn in Hn. lia.
  - rewrite <- B. apply app_removelast_last. vm_compute. discriminate.
Qed.
