(* The log amplitudes of IMBE streams stay bounded. *)
From Coq Require Import ZArith Reals Lra Lia List Bool.
From Verif Require Import Res F32 TabImbe MParms MSynth MImbe SpecEcc SpecFrame SpecImbe SpecAmp SpecState SpecMachine SpecBound PBase PFloat PDec PArr PImbe PRun PSpeech PReal PAmp PPredict PMachine PStream PResid PConv.
From Flocq Require Import Core.Core.
Import ListNotations.
Local Open Scope R_scope.

Definition log_at (m : parms) (k : Z) : f32 := nth (Z.to_nat k) (p_log2Ml m) (S754_zero false).
(* all entries are small and entry 0 is zero *)
Definition small_logs (m : parms) : Prop := length (p_log2Ml m) = 57%nat /\ (forall k, (0 <= k <= 56)%Z -> ff (log_at m k) /\ Rabs (R_of (log_at m k)) <= 108) /\ R_of (log_at m 0) = 0.
(* the entries of the frame lie in a window of 127 *)
Definition window (m : parms) : Prop := exists lo hi, -108 <= lo /\ hi <= 108 /\ hi - lo <= 127 /\ forall k, (0 <= k <= p_L m)%Z -> lo <= R_of (log_at m k) <= hi.
Definition steady (m : parms) : Prop := small_logs m /\ window m.

Lemma kept_R : forall L, (9 <= L <= 56)%Z -> ff (prediction L) /\ 0 <= R_of (prediction L) <= 1 /\ exists T, T <= 50 /\ IZR (resid_ub L) / unit30 <= T /\
  2 * T + R_of (prediction L) * 127 + / 16 <= 127 /\ T + R_of (prediction L) * 127 + / 16 <= 108.
Proof.
  intros L HL. pose proof (zrange_forallb 48 _ all_kept (L - 9) ltac:(lia)) as F. cbv beta in F. replace (L - 9 + 9)%Z with L in F by lia. unfold kept in F. cbv zeta in F.
  apply andb_true_iff in F as [F F6]. apply andb_true_iff in F as [F F5]. apply andb_true_iff in F as [F F4]. apply andb_true_iff in F as [F F3]. apply andb_true_iff in F as [F1 F2].
  apply Z.leb_le in F2, F3, F5, F6. apply ffb_ff in F1. apply negb_true_iff in F4. destruct (ub_bnd _ F1) as [_ U]. split; [exact F1|].
  change (2 ^ 30)%Z with 1073741824%Z in *. change (2 ^ 26)%Z with 67108864%Z in *. apply IZR_le in F2, F3, F5, F6. rewrite mult_IZR in F2. rewrite !plus_IZR, !mult_IZR in F5. rewrite !plus_IZR, !mult_IZR in F6. set (t := IZR (resid_ub L)) in *. set (u := IZR (ub (prediction L))) in *. unfold unit30 in *.
  assert (N : 0 <= R_of (prediction L)).
  { apply flt_false in F4; [|exact F1|split; reflexivity]. rewrite R_zero in F4. exact F4. }
  rewrite Rabs_pos_eq in U by exact N. split; [lra|]. exists (t / 1073741824). lra.
Qed.

Lemma past_small : forall prev L, steady prev -> (0 <= p_L prev <= 56)%Z -> exists lo hi, hi - lo <= 127 /\ past_ok (p_L prev) (past prev L) lo hi.
Proof.
  intros prev L ((LN & A & Z0) & lo & hi & B1 & B2 & B3 & W) HP. exists lo, hi. split; [exact B3|].
  assert (G : forall k, past prev L k = log_at prev (if (p_L prev <? k)%Z && (k <=? L)%Z then p_L prev else k)) by reflexivity.
  split; [|split; [|split; [|lra]]].
  - intros k Hk. rewrite G. destruct (Z.ltb_spec (p_L prev) k); [lia|]. cbn [andb]. split; [apply A; lia|apply W; lia].
  - rewrite G. destruct ((p_L prev <? p_L prev + 1)%Z && (p_L prev + 1 <=? L)%Z); [apply A; lia|].
    destruct (Z.eq_dec (p_L prev) 56) as [E|E]; [|apply A; lia]. unfold log_at. rewrite nth_overflow by lia. split; reflexivity.
  - rewrite G. assert (Q : forall k, (0 <= k <= 56)%Z -> Rabs (R_of (log_at prev k)) <= 130) by (intros k Hk; destruct (A k Hk); lra).
    destruct ((p_L prev <? p_L prev + 1)%Z && (p_L prev + 1 <=? L)%Z); [apply Q; lia|].
    destruct (Z.eq_dec (p_L prev) 56) as [E|E]; [|apply Q; lia]. unfold log_at. rewrite nth_overflow by lia. rewrite R_zero, Rabs_R0. lra.
Qed.

(* one frame's values *)
Lemma new_window : forall o L d prev, cosine_in_unit o -> exact_powers o -> is_bits 88 d -> (9 <= L <= 56)%Z -> steady prev -> (0 <= p_L prev <= 56)%Z ->
  exists lo hi, -108 <= lo <= 0 /\ 0 <= hi <= 108 /\ hi - lo <= 127 /\ forall l, (1 <= l <= L)%Z -> ff (imbe_log_amplitude o L d prev l) /\ lo <= R_of (imbe_log_amplitude o L d prev l) <= hi.
Proof.
  intros o L d prev CO X Hd HL S HP. destruct (past_small prev L S HP) as (lo & hi & D & P). destruct (kept_R L HL) as (RF & RB & T & T1 & T2 & T3 & T4).
  set (rho := R_of (prediction L)) in *. set (mean := rsum (Z.to_nat L) (mixed (p_L prev) L (past prev L)) / IZR L).
  assert (LP : 0 < IZR L) by (apply IZR_lt; lia).
  assert (M : lo - / 400 <= mean <= hi + / 400).
  { destruct (rsum_bound (Z.to_nat L) (mixed (p_L prev) L (past prev L)) (lo - / 400) (hi + / 400)) as [M1 M2].
    - intros k Hk. rewrite Z2Nat.id in Hk by lia. apply mixed_bounds; auto. lia.
    - rewrite INR_IZR_INZ, Z2Nat.id in M1, M2 by lia. unfold mean. split; apply (Rmult_le_reg_r (IZR L)); auto; unfold Rdiv; rewrite Rmult_assoc, Rinv_l by lra; lra. }
  assert (RD : rho * (hi - lo + / 200) <= rho * 127 + / 200).
  { assert (rho * (hi - lo + / 200) <= rho * (127 + / 200)) by (apply Rmult_le_compat_l; lra). lra. }
  exists (- T + rho * (lo - / 400 - mean) - / 100), (T + rho * (hi + / 400 - mean) + / 100).
  assert (TP : 0 <= T).
  { pose proof (residual_bnd o L d 1 CO X Hd HL) as RZ. apply bnd_pos, IZR_le in RZ. unfold unit30 in T2. lra. }
  assert (A1 : 0 <= rho * (mean - (lo - / 400)) <= rho * (hi - lo + / 200)) by (split; [apply Rmult_le_pos; lra|apply Rmult_le_compat_l; lra]).
  assert (A2 : 0 <= rho * (hi + / 400 - mean) <= rho * (hi - lo + / 200)) by (split; [apply Rmult_le_pos; lra|apply Rmult_le_compat_l; lra]).
  split; [lra|]. split; [lra|]. split; [lra|]. intros l Hl.
  pose proof (residual_bnd o L d l CO X Hd HL) as RZ. pose proof (bnd_abs _ _ RZ) as RA. destruct RZ as [RZ _].
  destruct (predicted_about (prediction L) (p_L prev) L (past prev L) (imbe_residual o L d) lo hi l HP ltac:(lia) Hl P RF RB RZ) as (FF & E); [lra|].
  unfold imbe_log_amplitude. split; [exact FF|]. fold rho mean in E. apply Rabs_le_inv in E. assert (RA2 : Rabs (R_of (imbe_residual o L d l)) <= T) by lra. apply Rabs_le_inv in RA2.
  destruct (mixed_bounds (p_L prev) L (past prev L) lo hi l HP ltac:(lia) Hl P) as [MB1 MB2]. set (x := mixed (p_L prev) L (past prev L) l) in *.
  assert (B1 : rho * (lo - / 400) <= rho * x) by (apply Rmult_le_compat_l; lra). assert (B2 : rho * x <= rho * (hi + / 400)) by (apply Rmult_le_compat_l; lra). lra.
Qed.

Lemma log_rd : forall m k x, rd (p_log2Ml m) k = Ok x -> log_at m k = x.
Proof. intros m k x H. apply rd_inv in H as [_ H]. unfold log_at. erewrite nth_error_nth; [reflexivity|exact H]. Qed.
Lemma rd_log : forall m k, length (p_log2Ml m) = 57%nat -> (0 <= k <= 56)%Z -> rd (p_log2Ml m) k = Ok (log_at m k).
Proof. intros m k L H. apply rd_nth. lia. Qed.
Lemma same_logs : forall m m', p_log2Ml m' = p_log2Ml m -> p_L m' = p_L m -> steady m -> steady m'.
Proof. intros m m' E F H. unfold steady, small_logs, window, log_at in *. rewrite E, F. exact H. Qed.
Lemma zero_logs : forall m, p_log2Ml m = repeat fzero 57 -> (0 <= p_L m <= 56)%Z -> steady m.
Proof.
  intros m E HL. assert (Q : forall k, log_at m k = S754_zero false).
  { intros k. unfold log_at. rewrite E. apply nth_repeat. }
  split.
  - split; [now rewrite E|]. split; [|rewrite Q; apply R_zero]. intros k Hk. rewrite Q, R_zero, Rabs_R0. split; [split; reflexivity|lra].
  - exists 0, 0. repeat split; try lra; rewrite Q, R_zero; lra.
Qed.

Lemma decoded_steady : forall o d cur prev bad c1 p1, cosine_in_unit o -> exact_powers o -> is_bits 88 d -> wf_parms cur -> wf_parms prev -> (0 <= p_L prev <= 56)%Z -> (pitch7200 d <= 207)%Z ->
  small_logs cur -> steady prev -> mbe_decodeImbe4400Parms o d cur prev = Ok (bad, c1, p1) -> steady c1 /\ steady p1.
Proof.
  intros o d cur prev bad c1 p1 CO X Hd WC WP HP Hb SC SP H. pose proof (pitch7200_range d Hd) as R. pose proof (harmonics_range (pitch7200 d) ltac:(lia)) as HL. set (L := imbe_harmonics (pitch7200 d)) in *.
  assert (LV : length (p_Vl cur) = 57%nat) by apply WC.
  assert (HU : usable_history L prev).
  { split; [exact WP|]. destruct (Z.eq_dec (p_L prev) 56) as [E|E]; [|left; lia]. right. split; [exact E|].
    destruct (Z.eq_dec L 23); [left; assumption|]. destruct (Z.eq_dec L 46); [right; assumption|].
    rewrite (imbe_decode_outside o d cur prev) in H by assumption. discriminate. }
  pose proof (imbe_amplitudes o d cur prev bad c1 p1 Hd WC Hb HU H) as AM. cbv zeta in AM. fold L in AM.
  destruct (imbe_decode_inv _ _ _ _ _ _ _ Hd Hb LV H) as (_ & AC & _). unfold imbe_accepted in AC. fold L in AC.
  cbv zeta in AC. fold L in AC. destruct AC as (EL & _ & _ & _ & _ & _ & (LS & OUT) & _ & _ & (LX & X1 & X2) & EP).
  destruct SC as (LC & AC & ZC). destruct (new_window o L d prev CO X Hd HL SP HP) as (lo & hi & B1 & B2 & B3 & NW).
  assert (IN : forall l, (1 <= l <= L)%Z -> log_at c1 l = imbe_log_amplitude o L d prev l) by (intros l Hl; apply log_rd, AM, Hl).
  assert (EX : forall l, (0 <= l <= 56)%Z -> (l < 1 \/ L < l)%Z -> log_at c1 l = log_at cur l).
  { intros l Hl Ho. apply log_rd. rewrite OUT by exact Ho. apply rd_log; assumption. }
  split.
  - split; [split; [congruence|split]|].
    + intros k Hk. destruct (Z_lt_ge_dec k 1); [rewrite EX by lia; auto|]. destruct (Z_lt_ge_dec L k); [rewrite EX by lia; auto|].
      rewrite IN by lia. destruct (NW k ltac:(lia)) as [N1 N2]. split; [exact N1|apply Rabs_le; lra].
    + rewrite EX by lia. exact ZC.
    + exists lo, hi. split; [lra|]. split; [lra|]. split; [lra|]. rewrite EL. intros k Hk. destruct (Z.eq_dec k 0) as [->|N]; [rewrite EX by lia; rewrite ZC; lra|].
      rewrite IN by lia. apply NW. lia.
  - assert (PL : p_L p1 = p_L prev) by (rewrite EP; reflexivity). destruct SP as ((LP & AP & ZP) & lo2 & hi2 & C1 & C2 & C3 & WP2).
    assert (G1 : forall l, (0 <= l <= 56)%Z -> (l <= p_L prev \/ L < l)%Z -> log_at p1 l = log_at prev l).
    { intros l Hl Ho. apply log_rd. rewrite X1 by exact Ho. apply rd_log; assumption. }
    assert (G2 : forall l, (p_L prev < l <= L)%Z -> log_at p1 l = log_at prev (p_L prev)).
    { intros l Hl. apply log_rd. rewrite X2 by exact Hl. apply rd_log; assumption. }
    split; [split; [congruence|split]|].
    + intros k Hk. destruct (Z_le_gt_dec k (p_L prev)); [rewrite G1 by lia; auto|]. destruct (Z_lt_ge_dec L k); [rewrite G1 by lia; auto|]. rewrite G2 by lia. apply AP. exact HP.
    + rewrite G1 by lia. exact ZP.
    + exists lo2, hi2. split; [exact C1|]. split; [exact C2|]. split; [exact C3|]. rewrite PL. intros k Hk. rewrite G1 by lia. apply WP2. exact Hk.
Qed.

Definition steady_state (st : dstate) : Prop := small_logs (cur_of st) /\ steady (prev_of st).
Lemma imbe_steady : forall o a c st t b str st' t', cosine_in_unit o -> exact_powers o -> call_ok c -> sane_state st -> steady_state st ->
  imbe_do o a c st t = Ok (b, str, st', t') -> steady_state st'.
Proof.
  intros o a c [[cur prev] enh] t b str st' t' CO X (Hd & Hn & LB) SS (SC & SP) H. unfold imbe_do in H. cbn [cur_of prev_of] in SC, SP.
  destruct (imbe_process_inv _ _ _ _ _ _ _ _ _ _ _ _ _ _ _ _ Hd Hn SS LB H) as (bad & c1 & p1 & c' & k & HD & EC & SN & -> & _ & B & _). cbv zeta in EC.
  destruct SS as (NC & NP & NE). set (e := imbe_entry (ic_errors c) (ic_c0_known c) cur prev) in *.
  assert (WE : wf_parms e) by (unfold e, imbe_entry; destruct (ic_c0_known c); exact (proj1 NC)).
  assert (SE : small_logs e) by (unfold e, imbe_entry; destruct (ic_c0_known c); exact SC).
  assert (ST : steady c').
  { set (need := imbe_needs (ic_bits c) (ic_errors c) (imbe_rate (p_errorRate prev) (ic_errors c)) (context (ic_c0 c) (ic_c0_known c))) in *.
    assert (Q : (need = false -> steady c1) /\ steady p1).
    { destruct (Z_le_gt_dec (pitch7200 (ic_bits c)) 207) as [A|A].
      - destruct (decoded_steady _ _ _ _ _ _ _ CO X Hd WE (proj1 NP) (proj1 (proj2 NP)) A SE SP HD). auto.
      - rewrite imbe_decode_bad in HD by (auto; lia). injection HD as _ _ <-. split; [|exact SP]. intros N. exfalso. unfold need, imbe_needs in N. apply orb_false_iff in N as [N _]. lia. }
    destruct Q as [Q1 Q2]. rewrite EC. unfold picked. destruct need.
    - destruct (p_repeatCount prev <? 4)%Z.
      + apply (same_logs p1); auto.
      + apply zero_logs; [reflexivity|]. cbn. lia.
    - apply (same_logs c1); auto. }
  split; [|exact ST]. cbn [cur_of]. assert (E : p_log2Ml k = p_log2Ml c') by (unfold but_speech in B; rewrite B; reflexivity). destruct ST as [ST _].
  unfold small_logs, log_at in *. rewrite E. exact ST.
Qed.
Lemma imbe_stream_steady : forall o a cs st t r st' t', cosine_in_unit o -> exact_powers o -> Forall call_ok cs -> sane_state st -> thread_ok t -> steady_state st ->
  imbe_stream o a cs st t = Ok (r, st', t') -> steady_state st'.
Proof.
  intros o a cs. induction cs as [|c cs IH]; intros st t r st' t' CO X HF SS TH HS H; cbn [imbe_stream] in H.
  - injection H as <- <- <-. exact HS.
  - inversion HF as [|x xs Hc HF']; subst. apply bind_inv in H as ([[[b s] st1] t1] & H1 & H). apply bind_inv in H as ([[r1 st2] t2] & H2 & H).
    injection H as <- <- <-. destruct (imbe_step _ _ _ _ _ _ _ _ _ Hc SS TH H1) as (S1 & T1 & _).
    apply (IH _ _ _ _ _ CO X HF' S1 T1 (imbe_steady _ _ _ _ _ _ _ _ _ CO X Hc SS HS H1) H2).
Qed.
Lemma imbe_bounded : forall o a cs t r st' t', cosine_in_unit o -> exact_powers o -> Forall call_ok cs -> thread_ok t ->
  imbe_stream o a cs start t = Ok (r, st', t') -> logs_within 108 (prev_of st').
Proof.
  intros o a cs t r st' t' CO X HF TH H. assert (S0 : steady_state start).
  { assert (Q : steady imbe_initial) by (apply zero_logs; [reflexivity|cbn; lia]). split; [exact (proj1 Q)|exact Q]. }
  destruct (imbe_stream_steady _ _ _ _ _ _ _ _ CO X HF sane_start TH S0 H) as [_ ((LN & A & _) & _)].
  intros l Hl. exists (log_at (prev_of st') l). split; [apply rd_log; assumption|apply A, Hl].
Qed.

(* an oracle that satisfies the hypotheses *)
Definition unit_oracle : oracle :=
  mkoracle (fun _ => f_of_Z 1) (fun x => x) (fun x => match sf_trunc x with Some k => if ((0 <=? k) && (k <=? 9))%Z then f_of_Z (2 ^ k) else f_of_Z 1 | None => f_of_Z 1 end)
    (fun _ => f_of_Z 3) (fun x => x) (fun _ _ => S754_zero false) (fun _ _ => S754_zero false) true Scalar true.
Lemma unit_cosine : cosine_in_unit unit_oracle.
Proof.
  intros x _. replace (cosf unit_oracle x) with (f_of_Z 1) by (vm_compute; reflexivity). destruct (of_Z_R 1) as [A B]; [lia|]. split; [exact A|]. rewrite B, Rabs_pos_eq; lra.
Qed.
Lemma unit_powers : exact_powers unit_oracle.
Proof.
  intros k Hk. assert (k = 0 \/ k = 1 \/ k = 2 \/ k = 3 \/ k = 4 \/ k = 5 \/ k = 6 \/ k = 7 \/ k = 8 \/ k = 9)%Z as D by lia.
  repeat (destruct D as [->|D]; [vm_compute; reflexivity|]). subst k. vm_compute. reflexivity.
Qed.
