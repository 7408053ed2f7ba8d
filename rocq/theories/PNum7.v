(* Streams of IMBE frames whose residuals are tame: every parameter set is moderate. *)
From Coq Require Import ZArith Reals Lra Lia List Bool.
From Verif Require Import Res F32 TabImbe MParms MSynth MImbe MAmbe SpecWola SpecEnh SpecGen SpecOut SpecEcc SpecFrame SpecImbe SpecAmp SpecState SpecMachine SpecBound SpecLoud SpecSynth SpecTrig SpecEnh2 SpecFftErr SpecNum
  PBase PFloat PDec PArr PImbe PRun PSpeech PReal PAmp PMachine PStream PResid PConv PGen PExp2 PNum PNum5 PPredict PBound.
From Flocq Require Import Core.Core.
Import ListNotations.
Local Open Scope R_scope.

Lemma rho_all : forallb (fun l => fle (prediction (l + 9)) (flit 7001 10000)) (zrange 48) = true.
Proof. vm_compute. reflexivity. Qed.
Lemma rho_bound : forall L, (9 <= L <= 56)%Z -> ff (prediction L) /\ 0 <= R_of (prediction L) <= 0.70011.
Proof.
  intros L HL. destruct (kept_R L HL) as (F & B & _). split; [exact F|]. split; [apply B|].
  pose proof (zrange_forallb 48 _ rho_all (L - 9) ltac:(lia)) as G. cbv beta in G. replace (L - 9 + 9)%Z with L in G by lia.
  apply fle_true in G; [|exact F|apply ff_const; vm_compute; reflexivity]. assert (E : R_of (flit 7001 10000) <= 0.70011) by (R_val (flit 7001 10000); lra). lra.
Qed.

Section Tame.
Variables lo hi : R.
Hypothesis TM : tame lo hi.
Definition width : R := (hi - lo + 0.03) / 0.29989.
Lemma width_eq : 0.29989 * width = hi - lo + 0.03. Proof. unfold width. field. lra. Qed.
Lemma width_range : 0 < width <= 45.
Proof. pose proof width_eq as E. destruct TM as ((A & B) & C & D). split; lra. Qed.

(* the log amplitudes of the frame and 0 lie in a window of that width *)
Definition snug (m : parms) : Prop := steady m /\ exists a b, a <= 0 <= b /\ b - a <= width /\ forall k, (0 <= k <= p_L m)%Z -> a <= R_of (log_at m k) <= b.

Lemma past_snug : forall prev L a b, small_logs prev -> (0 <= p_L prev <= 56)%Z -> -108 <= a -> b <= 108 -> (forall k, (0 <= k <= p_L prev)%Z -> a <= R_of (log_at prev k) <= b) ->
  past_ok (p_L prev) (past prev L) a b.
Proof.
  intros prev L a b (LN & A & Z0) HP B1 B2 W.
  assert (G : forall k, past prev L k = log_at prev (if (p_L prev <? k)%Z && (k <=? L)%Z then p_L prev else k)) by reflexivity.
  split; [|split; [|split; [|lra]]].
  - intros k Hk. rewrite G. destruct (Z.ltb_spec (p_L prev) k); [lia|]. cbn [andb]. split; [apply A; lia|apply W; lia].
  - rewrite G. destruct ((p_L prev <? p_L prev + 1)%Z && (p_L prev + 1 <=? L)%Z); [apply A; lia|].
    destruct (Z.eq_dec (p_L prev) 56) as [E|E]; [|apply A; lia]. unfold log_at. rewrite nth_overflow by lia. split; reflexivity.
  - rewrite G. assert (Q : forall k, (0 <= k <= 56)%Z -> Rabs (R_of (log_at prev k)) <= 130) by (intros k Hk; destruct (A k Hk); lra).
    destruct ((p_L prev <? p_L prev + 1)%Z && (p_L prev + 1 <=? L)%Z); [apply Q; lia|].
    destruct (Z.eq_dec (p_L prev) 56) as [E|E]; [|apply Q; lia]. unfold log_at. rewrite nth_overflow by lia. rewrite R_zero, Rabs_R0. lra.
Qed.

Lemma rsum_lt : forall n f g, (0 < n)%nat -> (forall k, (1 <= k <= Z.of_nat n)%Z -> f k < g k) -> rsum n f < rsum n g.
Proof.
  induction n as [|n IH]; intros f g Hn H; [lia|]. cbn [rsum]. destruct n as [|n].
  - cbn [rsum]. pose proof (H 1%Z ltac:(lia)). cbn. lra.
  - assert (rsum (S n) f < rsum (S n) g) by (apply IH; [lia|intros k Hk; apply H; lia]). pose proof (H (Z.of_nat (S (S n))) ltac:(lia)). lra.
Qed.
Lemma rsum_affine : forall n f c r, rsum n (fun l => c + r * f l) = INR n * c + r * rsum n f.
Proof. induction n as [|n IH]; intros f c r; [cbn; lra|]. cbn [rsum]. rewrite IH, S_INR. ring. Qed.

(* the values of one frame *)
Lemma new_snug : forall o L d prev, (9 <= L <= 56)%Z -> snug prev -> (0 <= p_L prev <= 56)%Z ->
  (forall l, (1 <= l <= L)%Z -> ff (imbe_residual o L d l) /\ lo <= R_of (imbe_residual o L d l) <= hi) ->
  exists a b, a <= 0 <= b /\ b - a <= width /\ b <= 27.98 /\
    (forall l, (1 <= l <= L)%Z -> ff (imbe_log_amplitude o L d prev l) /\ a <= R_of (imbe_log_amplitude o L d prev l) <= b) /\
    exists l, (1 <= l <= L)%Z /\ lo - 0.02 <= R_of (imbe_log_amplitude o L d prev l).
Proof.
  intros o L d prev HL ((SL & _) & a & b & AB & WD & W) HP RS. pose proof width_eq as WE. pose proof width_range as WR. destruct TM as (T1 & T2 & T3).
  assert (P : past_ok (p_L prev) (past prev L) a b) by (apply past_snug; auto; lra).
  destruct (rho_bound L HL) as (RF & RB). set (rho := R_of (prediction L)) in *. set (X := mixed (p_L prev) L (past prev L)) in *.
  set (mean := rsum (Z.to_nat L) X / IZR L). assert (LP : 0 < IZR L) by (apply IZR_lt; lia).
  assert (M : a - / 400 <= mean <= b + / 400).
  { destruct (rsum_bound (Z.to_nat L) X (a - / 400) (b + / 400)) as [M1 M2].
    - intros k Hk. rewrite Z2Nat.id in Hk by lia. apply mixed_bounds; auto. lia.
    - rewrite INR_IZR_INZ, Z2Nat.id in M1, M2 by lia. unfold mean. split; apply (Rmult_le_reg_r (IZR L)); auto; unfold Rdiv; rewrite Rmult_assoc, Rinv_l by lra; lra. }
  assert (RD : 0 <= rho * (b - a + / 200) <= 0.70011 * (width + / 200)) by (split; [apply Rmult_le_pos; lra|apply Rmult_le_compat; lra]).
  assert (A1 : 0 <= rho * (mean - (a - / 400)) <= rho * (b - a + / 200)) by (split; [apply Rmult_le_pos; lra|apply Rmult_le_compat_l; lra]).
  assert (A2 : 0 <= rho * (b + / 400 - mean) <= rho * (b - a + / 200)) by (split; [apply Rmult_le_pos; lra|apply Rmult_le_compat_l; lra]).
  assert (NW : forall l, (1 <= l <= L)%Z -> ff (imbe_log_amplitude o L d prev l) /\ Rabs (R_of (imbe_log_amplitude o L d prev l) - (R_of (imbe_residual o L d l) + rho * (X l - mean))) <= / 100).
  { intros l Hl. destruct (RS l Hl) as [F B]. unfold imbe_log_amplitude. apply (predicted_about (prediction L) (p_L prev) L (past prev L) (imbe_residual o L d) a b l HP); auto; try lia; try (fold rho; lra).
    apply Rabs_le. lra. }
  exists (lo + rho * (a - / 400 - mean) - / 100), (hi + rho * (b + / 400 - mean) + / 100).
  split; [lra|]. split; [lra|]. split; [lra|]. split.
  - intros l Hl. destruct (NW l Hl) as [N1 N2]. split; [exact N1|]. apply Rabs_le_inv in N2. destruct (RS l Hl) as [_ B].
    destruct (mixed_bounds (p_L prev) L (past prev L) a b l HP ltac:(lia) Hl P) as [MB1 MB2]. fold X in MB1, MB2.
    assert (B1 : rho * (a - / 400) <= rho * X l) by (apply Rmult_le_compat_l; lra). assert (B2 : rho * X l <= rho * (b + / 400)) by (apply Rmult_le_compat_l; lra). lra.
  - destruct (Classical_Prop.classic (exists l, (1 <= l <= L)%Z /\ lo - 0.02 <= R_of (imbe_log_amplitude o L d prev l))) as [K|K]; [exact K|exfalso].
    assert (Q : forall l, (1 <= l <= L)%Z -> rho * X l < rho * mean - / 100).
    { intros l Hl. destruct (Rlt_le_dec (R_of (imbe_log_amplitude o L d prev l)) (lo - 0.02)) as [C|C]; [|exfalso; apply K; eauto].
      destruct (NW l Hl) as [_ N2]. apply Rabs_le_inv in N2. destruct (RS l Hl) as [_ B]. lra. }
    assert (S : rsum (Z.to_nat L) (fun l => 0 + rho * X l) < rsum (Z.to_nat L) (fun l => (rho * mean - / 100) + 0 * X l)).
    { apply rsum_lt; [lia|]. intros k Hk. pose proof (Q k ltac:(lia)). lra. }
    rewrite !rsum_affine, INR_IZR_INZ, Z2Nat.id in S by lia. assert (E : rsum (Z.to_nat L) X = mean * IZR L) by (unfold mean; field; lra). rewrite E in S. nra.
Qed.
Lemma snug_same : forall m m', p_log2Ml m' = p_log2Ml m -> p_L m' = p_L m -> snug m -> snug m'.
Proof. intros m m' E F (S & H). split; [exact (same_logs m m' E F S)|]. unfold log_at in *. rewrite E, F. exact H. Qed.
Lemma snug_zero : forall m, p_log2Ml m = repeat fzero 57 -> (0 <= p_L m <= 56)%Z -> snug m.
Proof.
  intros m E HL. split; [apply zero_logs; assumption|]. exists 0, 0. pose proof width_range. split; [lra|]. split; [lra|].
  intros k _. assert (Q : log_at m k = S754_zero false) by (unfold log_at; rewrite E; apply nth_repeat). rewrite Q, R_zero. lra.
Qed.
Lemma moderate_same : forall m m', (forall l, (1 <= l <= p_L m)%Z -> cell zero (p_Ml m') l = cell zero (p_Ml m) l) -> p_L m' = p_L m -> moderate m -> moderate m'.
Proof.
  intros m m' H E (A & B). split.
  - intros l Hl. rewrite E in Hl. rewrite H by exact Hl. apply A, Hl.
  - replace (energy m') with (energy m); [exact B|]. unfold energy. rewrite E.
    assert (K : forall l, In l (upto (p_L m)) -> cell zero (p_Ml m') l = cell zero (p_Ml m) l).
    { intros l Hl. apply H. unfold upto in Hl. apply in_map_iff in Hl as (k & <- & Hk). apply in_seq in Hk. lia. }
    induction (upto (p_L m)) as [|x xs IH]; [reflexivity|]. cbn [fold_right]. rewrite (K x (or_introl eq_refl)), IH by (intros l Hl; apply K; right; exact Hl). reflexivity.
Qed.
Lemma energy_ge : forall m l, (1 <= l <= p_L m)%Z -> R_of (cell zero (p_Ml m) l) * R_of (cell zero (p_Ml m) l) <= energy m.
Proof.
  intros m l Hl. unfold energy. assert (I : In l (upto (p_L m))) by (unfold upto; apply in_map_iff; exists (Z.to_nat l); split; [lia|apply in_seq; lia]).
  assert (NN : forall xs, 0 <= fold_right (fun l s => R_of (cell zero (p_Ml m) l) * R_of (cell zero (p_Ml m) l) + s) 0 xs).
  { induction xs as [|y ys IH]; cbn [fold_right]; [lra|]. pose proof (Rle_0_sqr (R_of (cell zero (p_Ml m) y))) as Q. unfold Rsqr in Q. lra. }
  induction (upto (p_L m)) as [|x xs IH]; [destruct I|]. cbn [fold_right]. destruct I as [->|I].
  - pose proof (NN xs). lra.
  - specialize (IH I). pose proof (Rle_0_sqr (R_of (cell zero (p_Ml m) x))) as Q. unfold Rsqr in Q. lra.
Qed.
Lemma ones_moderate : forall m, p_Ml m = repeat fone 57 -> (1 <= p_L m <= 56)%Z -> moderate m.
Proof.
  intros m E HL. assert (C : forall l, (1 <= l <= p_L m)%Z -> cell zero (p_Ml m) l = f_of_Z 1).
  { intros l Hl. rewrite E. unfold cell. apply (repeat_spec 57 fone). apply nth_In. rewrite repeat_length. lia. }
  destruct (of_Z_R 1) as [O1 O2]; [lia|]. split.
  - intros l Hl. rewrite C by exact Hl. split; [exact O1|]. rewrite O2. lra.
  - pose proof (energy_ge m 1 ltac:(lia)) as G. rewrite C in G by lia. rewrite O2 in G. lra.
Qed.

Lemma power_top : forall x, x <= 27.98 -> 1.01 * Rpower 2 x <= 268435456.
Proof.
  intros x Hx. assert (P : 0 < Rpower 2 x) by apply exp_pos. assert (Q : Rpower 2 x * Rpower 2 (1 / 64) <= 268435456).
  { rewrite <- Rpower_plus. replace 268435456 with (Rpower 2 28). - apply Rpower_le2. lra. - replace 28 with (INR 28) by (rewrite INR_IZR_INZ; reflexivity). rewrite Rpower_pow by lra. lra. }
  pose proof root64_low. assert (Rpower 2 x * 1.01 <= Rpower 2 x * Rpower 2 (1 / 64)) by (apply Rmult_le_compat_l; lra). lra.
Qed.
Lemma power_bottom : forall x, -9 <= x -> / 512 <= Rpower 2 x.
Proof.
  intros x Hx. apply Rle_trans with (Rpower 2 (- IZR 9)); [|apply Rpower_le2; lra]. rewrite Rpower_Zneg by lia. change (2 ^ 9)%Z with 512%Z. lra.
Qed.

Section Library.
Variable o : oracle.
Hypothesis AL : accurate_library o.

Lemma decoded_snug : forall d cur prev bad c1 p1, is_bits 88 d -> wf_parms cur -> wf_parms prev -> (0 <= p_L prev <= 56)%Z -> (pitch7200 d <= 207)%Z -> residual_within o lo hi d ->
  small_logs cur -> snug prev -> mbe_decodeImbe4400Parms o d cur prev = Ok (bad, c1, p1) -> snug c1 /\ snug p1 /\ moderate c1 /\ (moderate prev -> moderate p1).
Proof.
  intros d cur prev bad c1 p1 Hd WC WP HP Hb RW SC SP H. destruct AL as (CO & X & _ & EX2).
  destruct (decoded_steady o d cur prev bad c1 p1 CO X Hd WC WP HP Hb SC (proj1 SP) H) as [S1 S2].
  pose proof (pitch7200_range d Hd) as R. pose proof (harmonics_range (pitch7200 d) ltac:(lia)) as HL. specialize (RW Hb). set (L := imbe_harmonics (pitch7200 d)) in *.
  assert (LV : length (p_Vl cur) = 57%nat) by apply WC.
  assert (HU : usable_history L prev).
  { split; [exact WP|]. destruct (Z.eq_dec (p_L prev) 56) as [E|E]; [|left; lia]. right. split; [exact E|].
    destruct (Z.eq_dec L 23); [left; assumption|]. destruct (Z.eq_dec L 46); [right; assumption|].
    rewrite (imbe_decode_outside o d cur prev) in H by assumption. discriminate. }
  pose proof (imbe_amplitudes o d cur prev bad c1 p1 Hd WC Hb HU H) as AM. cbv zeta in AM. fold L in AM.
  destruct (imbe_decode_inv _ _ _ _ _ _ _ Hd Hb LV H) as (_ & AC & _). unfold imbe_accepted in AC. fold L in AC. cbv zeta in AC. fold L in AC.
  destruct AC as (EL & _ & _ & _ & _ & (LMc & _) & _ & _ & (LMp & XM1 & _) & (LX & X1 & _) & EP).
  destruct (new_snug o L d prev HL SP HP) as (a & b & AB & WD & B98 & NW & (k0 & K1 & K2)).
  { intros l Hl. split; [apply (residual_bnd o L d l CO X Hd HL)|apply RW, Hl]. }
  assert (IN : forall l, (1 <= l <= L)%Z -> log_at c1 l = imbe_log_amplitude o L d prev l) by (intros l Hl; apply log_rd, AM, Hl).
  assert (IM : forall l, (1 <= l <= L)%Z -> cell zero (p_Ml c1) l = exp2f o (imbe_log_amplitude o L d prev l)).
  { intros l Hl. destruct (AM l Hl) as [_ A2]. apply rd_inv in A2 as [_ A2]. unfold cell. erewrite nth_error_nth; [reflexivity|exact A2]. }
  pose proof width_range as WR.
  assert (EV : forall l, (1 <= l <= L)%Z -> let x := R_of (imbe_log_amplitude o L d prev l) in ff (cell zero (p_Ml c1) l) /\ 0.99 * Rpower 2 x <= R_of (cell zero (p_Ml c1) l) <= 1.01 * Rpower 2 x).
  { intros l Hl x. destruct (NW l Hl) as [N1 N2]. rewrite IM by exact Hl. destruct (EX2 _ N1) as [E1 E2]; [apply Rabs_le; lra|]. split; [exact E1|]. apply Rabs_le_inv in E2. fold x in E2. lra. }
  split; [|split; [|split]].
  - split; [exact S1|]. exists a, b. split; [exact AB|]. split; [exact WD|]. rewrite EL. intros k Hk. destruct (Z.eq_dec k 0) as [->|N].
    + destruct S1 as ((_ & _ & Z1) & _). rewrite Z1. lra.
    + rewrite IN by lia. apply NW. lia.
  - split; [exact S2|]. destruct SP as (_ & a2 & b2 & Q1 & Q2 & Q3). exists a2, b2. split; [exact Q1|]. split; [exact Q2|].
    assert (PL : p_L p1 = p_L prev) by (rewrite EP; reflexivity). rewrite PL. intros k Hk.
    assert (G1 : log_at p1 k = log_at prev k). { apply log_rd. rewrite X1 by lia. apply rd_log; [apply WP|lia]. }
    rewrite G1. apply Q3, Hk.
  - split.
    + intros l Hl. rewrite EL in Hl. destruct (EV l Hl) as [E1 E2]. split; [exact E1|]. destruct (NW l Hl) as [_ N2].
      pose proof (power_top (R_of (imbe_log_amplitude o L d prev l)) ltac:(lra)). assert (0 < Rpower 2 (R_of (imbe_log_amplitude o L d prev l))) by apply exp_pos. lra.
    + pose proof (energy_ge c1 k0 ltac:(rewrite EL; exact K1)) as G. destruct (EV k0 K1) as [_ E2]. destruct TM as (T1 & _). pose proof (power_bottom (R_of (imbe_log_amplitude o L d prev k0)) ltac:(lra)) as PB.
      set (y := R_of (cell zero (p_Ml c1) k0)) in *. assert (0.0019 <= y) by lra. assert (0.0019 * 0.0019 <= y * y) by (apply Rmult_le_compat; lra). lra.
  - intros MO. apply (moderate_same prev); [|rewrite EP; reflexivity|exact MO]. intros l Hl. destruct WP as (_ & LM & _).
    assert (rd (p_Ml p1) l = rd (p_Ml prev) l) as E by (apply XM1; lia). unfold cell.
    destruct (rd_ok (p_Ml prev) l) as [v Hv]; [lia|]. rewrite Hv in E. apply rd_inv in E as [_ E]. apply rd_inv in Hv as [_ Hv].
    rewrite (nth_error_nth _ _ _ E), (nth_error_nth _ _ _ Hv). reflexivity.
Qed.

Definition snug_state (st : dstate) : Prop := small_logs (cur_of st) /\ snug (prev_of st) /\ moderate (prev_of st).
Lemma snug_step : forall a c st t b str st' t', call_ok c -> residual_within o lo hi (ic_bits c) -> sane_state st -> snug_state st ->
  imbe_do o a c st t = Ok (b, str, st', t') -> snug_state st'.
Proof.
  intros a c [[cur prev] enh] t b str st' t' (Hd & Hn & LB) RW SS (SC & SP & MP) H. unfold imbe_do in H. cbn [cur_of prev_of] in SC, SP, MP.
  destruct (imbe_process_inv _ _ _ _ _ _ _ _ _ _ _ _ _ _ _ _ Hd Hn SS LB H) as (bad & c1 & p1 & c' & k & HD & EC & SN & -> & _ & B & _). cbv zeta in EC.
  destruct SS as (NC & NP & NE). set (e := imbe_entry (ic_errors c) (ic_c0_known c) cur prev) in *.
  assert (WE : wf_parms e) by (unfold e, imbe_entry; destruct (ic_c0_known c); exact (proj1 NC)).
  assert (SE : small_logs e) by (unfold e, imbe_entry; destruct (ic_c0_known c); exact SC).
  assert (ST : snug c' /\ moderate c').
  { set (need := imbe_needs (ic_bits c) (ic_errors c) (imbe_rate (p_errorRate prev) (ic_errors c)) (context (ic_c0 c) (ic_c0_known c))) in *.
    assert (Q : (need = false -> snug c1 /\ moderate c1) /\ snug p1 /\ moderate p1).
    { destruct (Z_le_gt_dec (pitch7200 (ic_bits c)) 207) as [A|A].
      - destruct (decoded_snug _ _ _ _ _ _ Hd WE (proj1 NP) (proj1 (proj2 NP)) A RW SE SP HD) as (D1 & D2 & D3 & D4). auto.
      - rewrite imbe_decode_bad in HD by (auto; lia). injection HD as _ _ <-. split; [|auto]. intros N. exfalso. unfold need, imbe_needs in N. apply orb_false_iff in N as [N _]. lia. }
    destruct Q as [Q1 [Q2 Q3]]. rewrite EC. unfold picked. destruct need.
    - destruct (p_repeatCount prev <? 4)%Z.
      + split; [apply (snug_same p1); auto|apply (moderate_same p1); auto].
      + split; [apply snug_zero; [reflexivity|cbn; lia]|apply ones_moderate; [reflexivity|cbn; lia]].
    - destruct (Q1 eq_refl). split; [apply (snug_same c1); auto|apply (moderate_same c1); auto]. }
  destruct ST as [ST1 ST2]. split; [|split; assumption]. cbn [cur_of]. assert (E : p_log2Ml k = p_log2Ml c') by (unfold but_speech in B; rewrite B; reflexivity). destruct ST1 as [[ST1 _] _].
  unfold small_logs, log_at in *. rewrite E. exact ST1.
Qed.

Hypothesis AA : accurate_angles o.
Hypothesis BT : bounded_transforms o.
Lemma tame_stream : forall a cs st t r st' t', Forall call_ok cs -> Forall (fun c => ic_errors c <= 20)%Z cs -> Forall (fun c => residual_within o lo hi (ic_bits c)) cs -> lively st -> snug_state st -> thread_ok t ->
  (Z.max 20480 (p_amplitudeThreshold (enh_of st)) + 6000 * Z.of_nat (length cs) <= 2000000000)%Z ->
  imbe_stream o a cs st t = Ok (r, st', t') -> moderate (prev_of st') /\ Forall (fun f => Forall number (fst f)) r.
Proof.
  intros a cs. induction cs as [|c cs IH]; intros st t r st' t' FC FE FR ST SN TH HT H; cbn [imbe_stream] in H.
  - injection H as <- <- _. split; [apply SN|constructor].
  - apply bind_inv in H as ([[[b s] st1] t1] & HD & H). apply bind_inv in H as ([[r1 st2] t2] & HR & H).
    assert (Q : r = (b, s) :: r1 /\ st' = st2) by (now inversion H). destruct Q as [-> ->]. clear H.
    apply Forall_cons_iff in FC as [C1 FC]. apply Forall_cons_iff in FE as [E1 FE]. apply Forall_cons_iff in FR as [R1 FR]. rewrite (eq_refl : length (c :: cs) = S (length cs)) in HT.
    destruct (imbe_step _ _ _ _ _ _ _ _ _ C1 (proj1 ST) TH HD) as (_ & TH1 & _ & _ & _ & _ & _ & _ & _ & _ & _ & _ & _ & _ & _ & TB & _).
    pose proof (snug_step _ _ _ _ _ _ _ _ C1 R1 (proj1 ST) SN HD) as SN1.
    destruct (lively_step o AA BT _ _ _ _ _ _ _ _ C1 E1 ST TH ltac:(lia) HD (proj2 (proj2 SN1))) as [S1 N1].
    destruct (IH st1 t1 r1 st2 t2 FC FE FR S1 SN1 TH1 ltac:(lia) HR) as [S2 N2]. split; [exact S2|]. constructor; assumption.
Qed.
Lemma snug_start : snug_state start.
Proof.
  assert (Q : snug imbe_initial) by (apply snug_zero; [reflexivity|cbn; lia]). split; [exact (proj1 (proj1 Q))|]. split; [exact Q|]. apply ones_moderate; [reflexivity|cbn; lia].
Qed.
End Library.
End Tame.
