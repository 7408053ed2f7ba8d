(* The log amplitudes and gains of AMBE streams stay bounded. *)
From Coq Require Import ZArith Reals Lra Lia List Bool.
From Verif Require Import Res F32 TabAmbe2450 TabAmbe2400 MFrame MParms MAdaptive MUnvoiced MSynth MImbe MAmbe SpecEcc SpecFrame SpecImbe SpecAmbe SpecAmp SpecState SpecAdaptive SpecGen SpecOut SpecWola SpecEnh SpecTone SpecMachine SpecAmbeMachine SpecBound
  PBase PFloat PFloat2 PDec PArr PRun PLoop PState PAdapt PGen POut PWola PSpeech PReal PImbe PExp2 PAmbeDec PAmbeDec2 PEnh PNyq PTone PAmp PAmp2 PPredict PConv PMachine PStream PAmbeMachine PAmbeStream PResid PResid2 PBound.
From Flocq Require Import Core.Core.
Import ListNotations.
Local Open Scope R_scope.

(* residual size, spread *)
Definition rsize (r : codec) : R := match r with R2450 => 11 | R2400 => 13.125 end.
Definition spread (r : codec) : R := match r with R2450 => 64 | R2400 => 76 end.
Definition dsize (r : codec) : R := match r with R2450 => 6.875 | R2400 => 5.36 end.
Lemma sizes_ok : forall r, 0 <= rsize r <= 14 /\ 0 <= spread r <= 76 /\ 2 * rsize r + 0.6501 * spread r + / 16 <= spread r /\ 2 * rsize r + 0.6501 * spread r + gain_range r + 3 + / 8 <= log_size r /\ log_size r <= 90 /\
  dsize r + / 2 * gain_range r + / 100 <= gain_range r /\ 0 <= gain_range r <= 14 /\ 0 <= dsize r <= 10.
Proof. intros []; unfold rsize, spread, dsize, gain_range, log_size; lra. Qed.
Definition vector (r : codec) (d : list Z) : Z -> f32 := match r with R2450 => gain_vector2450 d | R2400 => gain_vector2400 d end.
Definition higher (r : codec) (d : list Z) : Z -> list f32 := match r with R2450 => higher2450 d | R2400 => higher2400 d end.
Definition block (r : codec) (L : Z) : Z -> Z := match r with R2450 => block2450 L | R2400 => block2400 L end.
Definition gstep (r : codec) (d : list Z) : f32 := match r with R2450 => gain2450 d | R2400 => gain2400 d end.
Lemma vector_2450 : vector R2450 = gain_vector2450.
Proof. unfold vector. reflexivity. Qed.
Lemma vector_2400 : vector R2400 = gain_vector2400.
Proof. unfold vector. reflexivity. Qed.
Lemma higher_2450 : higher R2450 = higher2450.
Proof. unfold higher. reflexivity. Qed.
Lemma higher_2400 : higher R2400 = higher2400.
Proof. unfold higher. reflexivity. Qed.
Lemma block_2450 : block R2450 = block2450.
Proof. unfold block. reflexivity. Qed.
Lemma block_2400 : block R2400 = block2400.
Proof. unfold block. reflexivity. Qed.
Lemma gstep_2450 : gstep R2450 = gain2450.
Proof. unfold gstep. reflexivity. Qed.
Lemma gstep_2400 : gstep R2400 = gain2400.
Proof. unfold gstep. reflexivity. Qed.
Lemma logs_2450 : forall o d prev, log_amplitude2450 o d prev = ambe_log_amplitude o (harmonics2450 (pitch2450 d)) (block2450 (harmonics2450 (pitch2450 d))) (gain_vector2450 d) (higher2450 d) (fadd (gain2450 d) (fmul (flit 1 2) (p_gamma prev))) prev.
Proof. intros. unfold log_amplitude2450. reflexivity. Qed.
Lemma logs_2400 : forall o d prev, log_amplitude2400 o d prev = ambe_log_amplitude o (harmonics2400 (pitch2400 d)) (block2400 (harmonics2400 (pitch2400 d))) (gain_vector2400 d) (higher2400 d) (fadd (gain2400 d) (fmul (flit 1 2) (p_gamma prev))) prev.
Proof. intros. unfold log_amplitude2400. reflexivity. Qed.
Lemma blocks_fine : forallb (fun l => forallb (fun i => (2 <=? block2450 (l + 9) i)%Z && (block2450 (l + 9) i <=? 17)%Z && (2 <=? block2400 (l + 9) i)%Z && (block2400 (l + 9) i <=? 17)%Z) [1; 2; 3; 4]%Z) (zrange 48) = true.
Proof. vm_compute. reflexivity. Qed.
Lemma block_range : forall r L i, (9 <= L <= 56)%Z -> (1 <= i <= 4)%Z -> (2 <= block r L i <= 17)%Z.
Proof.
  intros r L i HL Hi. pose proof (zrange_forallb 48 _ blocks_fine (L - 9) ltac:(lia)) as F. cbv beta in F. replace (L - 9 + 9)%Z with L in F by lia. rewrite forallb_forall in F.
  assert (I : In i [1; 2; 3; 4]%Z) by (cbn [In]; lia). specialize (F i I). destruct r; cbn [block]; lia.
Qed.
Ltac index ps := match goal with |- (0 <= _ < Z.of_nat (length ?t))%Z => apply (in_book _ ps (2 ^ Z.of_nat (length ps))); [assumption|reflexivity|reflexivity|vm_compute; discriminate] end.
Lemma residual_small : forall r o L d l, cosine_in_unit o -> is_bits 49 d -> (9 <= L <= 56)%Z ->
  ff (ambe_residual o (block r L) (vector r d) (higher r d) l) /\ Rabs (R_of (ambe_residual o (block r L) (vector r d) (higher r d) l)) <= rsize r.
Proof.
  intros r o L d l CO Hd HL.
  assert (Q : bnd (ambe_residual o (block r L) (vector r d) (higher r d) l) (match r with R2450 => 11811160064 | R2400 => 14092861440 end)).
  { destruct r; cbn [vector higher].
    - pose proof books2450 as B. apply andb_true_iff in B as [B B8]. apply andb_true_iff in B as [B B7]. apply andb_true_iff in B as [B B6]. apply andb_true_iff in B as [B B5]. apply andb_true_iff in B as [B24 B58].
      destruct (book_row _ _ _ (bits_at d [12; 13; 14; 15; 16; 17; 18; 19; 40]%Z) B24) as (P1 & P2 & P3); [index [12; 13; 14; 15; 16; 17; 18; 19; 40]%Z|].
      destruct (book_row _ _ _ (bits_at d [20; 21; 22; 23; 41; 42; 43]%Z) B58) as (Q1 & Q2 & Q3); [index [20; 21; 22; 23; 41; 42; 43]%Z|].
      destruct (vector_bnd _ _ _ _ P1 Q1 P2 Q2 P3 Q3) as [V1 V2].
      eapply bnd_weak; [apply (ambe_residual_bnd o _ _ _ _ 1191835152 l CO (fun i => block_range R2450 L i HL) V1 V2); [vm_compute; split; discriminate| |vm_compute; split; discriminate]|vm_compute; discriminate].
      intros i Hi. unfold higher2450. destruct (Z.eqb_spec i 1); [apply (book_row _ _ _ _ B5); index [24; 25; 26; 27; 44]%Z|]. destruct (Z.eqb_spec i 2); [apply (book_row _ _ _ _ B6); index [28; 29; 30; 45]%Z|].
      destruct (Z.eqb_spec i 3); [apply (book_row _ _ _ _ B7); index [31; 32; 33; 46]%Z|apply (book_row _ _ _ _ B8); index [34; 47; 48]%Z].
    - pose proof books2400 as B. apply andb_true_iff in B as [B B8]. apply andb_true_iff in B as [B B7]. apply andb_true_iff in B as [B B6]. apply andb_true_iff in B as [B B5]. apply andb_true_iff in B as [B24 B58].
      destruct (book_row _ _ _ (bits_at d [10; 11; 12; 13; 14; 15; 16; 44; 45]%Z) B24) as (P1 & P2 & P3); [index [10; 11; 12; 13; 14; 15; 16; 44; 45]%Z|].
      destruct (book_row _ _ _ (bits_at d [17; 18; 19; 20; 21; 46; 47]%Z) B58) as (Q1 & Q2 & Q3); [index [17; 18; 19; 20; 21; 46; 47]%Z|].
      destruct (vector_bnd _ _ _ _ P1 Q1 P2 Q2 P3 Q3) as [V1 V2].
      eapply bnd_weak; [apply (ambe_residual_bnd o _ _ _ _ 1417676344 l CO (fun i => block_range R2400 L i HL) V1 V2); [vm_compute; split; discriminate| |vm_compute; split; discriminate]|vm_compute; discriminate].
      intros i Hi. unfold higher2400. destruct (Z.eqb_spec i 1); [apply (book_row _ _ _ _ B5); index [22; 23; 25; 26]%Z|]. destruct (Z.eqb_spec i 2); [apply (book_row _ _ _ _ B6); index [27; 28; 29; 30]%Z|].
      destruct (Z.eqb_spec i 3); [apply (book_row _ _ _ _ B7); index [31; 32; 33; 34]%Z|apply (book_row _ _ _ _ B8)].
      pose proof (bits_at_range 49 d [35; 36; 37]%Z Hd ltac:(positions)) as R. change (2 ^ Z.of_nat (length [35; 36; 37]%Z))%Z with 8%Z in R. change (Z.of_nat (length AmbePlusHOCb8)) with 16%Z. lia. }
  split; [exact (proj1 Q)|]. apply bnd_abs in Q. eapply Rle_trans; [exact Q|]. unfold unit30. destruct r; cbn [rsize]; lra.
Qed.
Lemma gains_fine : forallb (fun x => ffb x && (ub x <=? 7381974999)%Z) AmbeDg && forallb (fun x => ffb x && (ub x <=? 5755256176)%Z) AmbePlusDg = true.
Proof. vm_compute. reflexivity. Qed.
Lemma gstep_small : forall r d, is_bits 49 d -> ff (gstep r d) /\ Rabs (R_of (gstep r d)) <= dsize r.
Proof.
  intros r d Hd. pose proof gains_fine as G. apply andb_true_iff in G as [G1 G2]. rewrite forallb_forall in G1, G2. destruct r; cbn [gstep dsize].
  - pose proof (bits_at_range 49 d [8; 9; 10; 11; 36]%Z Hd ltac:(positions)) as R. change (2 ^ Z.of_nat (length [8; 9; 10; 11; 36]%Z))%Z with 32%Z in R.
    assert (I : In (gain2450 d) AmbeDg) by (apply nth_In; change (length AmbeDg) with 32%nat; lia). apply G1, andb_true_iff in I as [I1 I2]. apply ffb_ff in I1. apply Z.leb_le, IZR_le in I2. split; [exact I1|].
    destruct (ub_bnd _ I1) as [_ U]. unfold unit30 in U. lra.
  - pose proof (bits_at_range 49 d [6; 7; 8; 9; 42; 43]%Z Hd ltac:(positions)) as R. change (2 ^ Z.of_nat (length [6; 7; 8; 9; 42; 43]%Z))%Z with 64%Z in R.
    assert (I : In (gain2400 d) AmbePlusDg) by (apply nth_In; change (length AmbePlusDg) with 64%nat; lia). apply G2, andb_true_iff in I as [I1 I2]. apply ffb_ff in I1. apply Z.leb_le, IZR_le in I2. split; [exact I1|].
    destruct (ub_bnd _ I1) as [_ U]. unfold unit30 in U. lra.
Qed.
Lemma gain_next : forall r d g, is_bits 49 d -> ff g -> Rabs (R_of g) <= gain_range r -> let g' := fadd (gstep r d) (fmul (flit 1 2) g) in ff g' /\ Rabs (R_of g') <= gain_range r.
Proof.
  intros r d g Hd F B. cbv zeta. destruct (gstep_small r d Hd) as [GF GB]. destruct (sizes_ok r) as (_ & _ & _ & _ & _ & S1 & S2 & S3). destruct half_R as [HF HV]. pose proof u24_small as U. pose proof tiny_u as T.
  assert (M := about_mul _ _ _ _ 0 0 1 14 (about_self _ HF) (about_self _ F)). rewrite HV in M. rewrite (Rabs_pos_eq (/ 2)) in M by lra. specialize (M ltac:(lra) ltac:(lra) ltac:(lra) ltac:(unfold huge; lra)).
  assert (B2 : Rabs (/ 2 * R_of g) <= / 2 * gain_range r) by (apply abs_mul_le; [rewrite Rabs_pos_eq; lra|exact B]).
  assert (A := about_add _ _ _ _ _ _ 30 (about_self _ GF) M ltac:(lra) ltac:(unfold huge; lra)). destruct A as [A1 A2]. split; [exact A1|].
  replace (R_of (fadd (gstep r d) (fmul (flit 1 2) g))) with ((R_of (fadd (gstep r d) (fmul (flit 1 2) g)) - (R_of (gstep r d) + / 2 * R_of g)) + (R_of (gstep r d) + / 2 * R_of g)) by ring.
  eapply Rle_trans; [apply Rabs_triang|]. pose proof (Rabs_triang (R_of (gstep r d)) (/ 2 * R_of g)). lra.
Qed.

(* ---- the state ---- *)
Definition small (r : codec) (m : parms) : Prop := length (p_log2Ml m) = 57%nat /\ forall k, (0 <= k <= 56)%Z -> ff (log_at m k) /\ Rabs (R_of (log_at m k)) <= log_size r.
Definition narrow (r : codec) (m : parms) : Prop := exists lo hi, - log_size r <= lo /\ hi <= log_size r /\ hi - lo <= spread r /\ forall k, (1 <= k <= p_L m)%Z -> lo <= R_of (log_at m k) <= hi.
Definition calm (r : codec) (m : parms) : Prop := small r m /\ narrow r m /\ gain_within (gain_range r) m /\ (1 <= p_L m <= 56)%Z.

Lemma past_calm : forall r prev L, calm r prev -> exists lo hi, hi - lo <= spread r /\ past_ok (p_L prev) (fun l => past prev L (Z.max 1 l)) lo hi.
Proof.
  intros r prev L ((LN & A) & (lo & hi & B1 & B2 & B3 & W) & _ & HP). exists lo, hi. split; [exact B3|]. destruct (sizes_ok r) as (_ & _ & _ & _ & S & _).
  assert (G : forall k, past prev L k = log_at prev (if (p_L prev <? k)%Z && (k <=? L)%Z then p_L prev else k)) by reflexivity.
  split; [|split; [|split; [|lra]]].
  - intros k Hk. rewrite G. destruct (Z.ltb_spec (p_L prev) (Z.max 1 k)); [lia|]. cbn [andb]. split; [apply A; lia|apply W; lia].
  - rewrite G. replace (Z.max 1 (p_L prev + 1)) with (p_L prev + 1)%Z by lia. destruct ((p_L prev <? p_L prev + 1)%Z && (p_L prev + 1 <=? L)%Z); [apply A; lia|].
    destruct (Z.eq_dec (p_L prev) 56) as [E|E]; [|apply A; lia]. unfold log_at. rewrite nth_overflow by lia. split; reflexivity.
  - rewrite G. replace (Z.max 1 (p_L prev + 1)) with (p_L prev + 1)%Z by lia. assert (Q : forall k, (0 <= k <= 56)%Z -> Rabs (R_of (log_at prev k)) <= 130) by (intros k Hk; destruct (A k Hk); lra).
    destruct ((p_L prev <? p_L prev + 1)%Z && (p_L prev + 1 <=? L)%Z); [apply Q; lia|].
    destruct (Z.eq_dec (p_L prev) 56) as [E|E]; [|apply Q; lia]. unfold log_at. rewrite nth_overflow by lia. rewrite R_zero, Rabs_R0. lra.
Qed.
Lemma rho_R : ff (d2f (dlit 65 100)) /\ 0 <= R_of (d2f (dlit 65 100)) <= 0.65001.
Proof.
  set (c := d2f (dlit 65 100)). assert (E : ffb c && negb (flt c (S754_zero false)) && (ub c <=? 697932160)%Z = true) by (vm_compute; reflexivity).
  apply andb_true_iff in E as [E E3]. apply andb_true_iff in E as [E1 E2]. apply ffb_ff in E1. apply negb_true_iff in E2. apply flt_false in E2; [|exact E1|split; reflexivity]. rewrite R_zero in E2. apply Z.leb_le, IZR_le in E3.
  split; [exact E1|]. destruct (ub_bnd _ E1) as [_ U]. rewrite Rabs_pos_eq in U by exact E2. unfold unit30 in U. lra.
Qed.
(* the gain of a frame: gamma minus half the log of the number of harmonics minus the mean of the residuals *)
Lemma level_about : forall o L g f T, log2_in_six o -> (9 <= L <= 56)%Z -> ff g -> Rabs (R_of g) <= 14 -> 0 <= T <= 14 -> (forall l, (1 <= l <= L)%Z -> ff (f l) /\ Rabs (R_of (f l)) <= T) ->
  let G := fsub (fsub g (fmul (flit 1 2) (log2f o (f_of_Z L)))) (fdiv (fsum L f) (f_of_Z L)) in ff G /\ Rabs (R_of G) <= Rabs (R_of g) + 3 + T + / 100.
Proof.
  intros o L g f T LO HL GF GB HT HF. cbv zeta. destruct (LO L HL) as [LF LB]. destruct half_R as [HH HV]. pose proof u24_small as U. pose proof tiny_u as TU.
  assert (M := about_mul _ _ _ _ 0 0 1 6 (about_self _ HH) (about_self _ LF)). rewrite HV in M. rewrite (Rabs_pos_eq (/ 2)) in M by lra. specialize (M ltac:(lra) ltac:(lra) ltac:(lra) ltac:(unfold huge; lra)).
  set (lg := log2f o (f_of_Z L)) in *. assert (B2 : Rabs (/ 2 * R_of lg) <= / 2 * 6) by (apply abs_mul_le; [rewrite Rabs_pos_eq; lra|exact LB]).
  assert (A := about_sub _ _ _ _ _ _ 30 (about_self _ GF) M ltac:(lra) ltac:(unfold huge; lra)).
  assert (A' := about_weak _ _ _ (/ 10000) A ltac:(lra)).
  assert (S : about (fsum L f) (rsum (Z.to_nat L) (fun l => R_of (f l))) (IZR L * (0 + / 1000))).
  { replace L with (Z.of_nat (Z.to_nat L)) at 1 by lia. replace (IZR L) with (INR (Z.to_nat L)) by (rewrite INR_IZR_INZ; f_equal; lia).
    apply (fsum_about _ _ _ _ 20); [lia|lra|lra|lra|]. intros k Hk. destruct (HF k ltac:(lia)) as [F1 F2]. split; [apply about_self, F1|lra]. }
  assert (SB : Rabs (rsum (Z.to_nat L) (fun l => R_of (f l))) <= IZR L * T).
  { replace (IZR L) with (INR (Z.to_nat L)) by (rewrite INR_IZR_INZ; f_equal; lia). apply rsum_abs. intros k Hk. apply HF. lia. }
  set (rs := rsum _ _) in *. set (s := fsum L f) in *. destruct S as [SF SE]. destruct (of_Z_R L) as [O1 O2]; [lia|].
  assert (L1 : 9 <= IZR L <= 56) by (split; apply IZR_le; lia).
  assert (SA : Rabs (R_of s) <= IZR L * (T + / 1000)). { replace (R_of s) with ((R_of s - rs) + rs) by ring. eapply Rle_trans; [apply Rabs_triang|lra]. }
  assert (Q : Rabs (R_of s / R_of (f_of_Z L)) <= T + / 1000).
  { rewrite O2. unfold Rdiv. rewrite Rabs_mult, (Rabs_pos_eq (/ IZR L)) by (apply Rlt_le, Rinv_0_lt_compat; lra). apply (Rmult_le_reg_r (IZR L)); [lra|]. rewrite Rmult_assoc, Rinv_l by lra. lra. }
  assert (Q15 : Rabs (R_of s / R_of (f_of_Z L)) <= 15) by lra.
  destruct (fdiv_e s (f_of_Z L) SF O1) as (DF & DE); [rewrite O2; lra|unfold huge; lra|]. apply (fun h => err_le _ _ 15 h Q15) in DE.
  set (q := fdiv s (f_of_Z L)) in *. assert (QB : Rabs (R_of q) <= T + / 500). { replace (R_of q) with ((R_of q - R_of s / R_of (f_of_Z L)) + R_of s / R_of (f_of_Z L)) by ring. eapply Rle_trans; [apply Rabs_triang|lra]. }
  assert (GB2 : Rabs (R_of g - / 2 * R_of lg) <= Rabs (R_of g) + 3). { replace (R_of g - / 2 * R_of lg) with (R_of g + - (/ 2 * R_of lg)) by ring. eapply Rle_trans; [apply Rabs_triang|]. rewrite Rabs_Ropp. lra. }
  assert (Z := about_sub _ _ _ _ _ _ 60 A' (about_self _ DF) ltac:(lra) ltac:(unfold huge; lra)). destruct Z as [Z1 Z2]. split; [exact Z1|]. set (G := fsub _ q) in *.
  replace (R_of G) with ((R_of G - (R_of g - / 2 * R_of lg - R_of q)) + ((R_of g - / 2 * R_of lg) + - R_of q)) by ring.
  eapply Rle_trans; [apply Rabs_triang|]. pose proof (Rabs_triang (R_of g - / 2 * R_of lg) (- R_of q)) as TR. rewrite (Rabs_Ropp (R_of q)) in TR. lra.
Qed.
(* one frame's values *)
Lemma new_narrow : forall r o L d prev g, cosine_in_unit o -> log2_in_six o -> is_bits 49 d -> (9 <= L <= 56)%Z -> calm r prev -> ff g -> Rabs (R_of g) <= gain_range r ->
  exists lo hi, - log_size r <= lo /\ hi <= log_size r /\ hi - lo <= spread r /\ forall l, (1 <= l <= L)%Z ->
    let x := ambe_log_amplitude o L (block r L) (vector r d) (higher r d) g prev l in ff x /\ lo <= R_of x <= hi.
Proof.
  intros r o L d prev g CO LO Hd HL S GF GB. destruct (past_calm r prev L S) as (lo & hi & D & P). destruct rho_R as [RF RB]. destruct (sizes_ok r) as (S1 & S2 & S3 & S4 & S5 & S6 & S7 & _).
  assert (HP : (0 <= p_L prev <= 56)%Z) by (destruct S as (_ & _ & _ & HP); lia).
  set (rho := R_of (d2f (dlit 65 100))) in *. set (a := fun l => past prev L (Z.max 1 l)) in *. set (f := ambe_residual o (block r L) (vector r d) (higher r d)).
  set (mean := rsum (Z.to_nat L) (mixed (p_L prev) L a) / IZR L). set (T := rsize r) in *.
  assert (LP : 0 < IZR L) by (apply IZR_lt; lia).
  assert (M : lo - / 400 <= mean <= hi + / 400).
  { destruct (rsum_bound (Z.to_nat L) (mixed (p_L prev) L a) (lo - / 400) (hi + / 400)) as [M1 M2].
    - intros k Hk. rewrite Z2Nat.id in Hk by lia. apply mixed_bounds; auto. lia.
    - rewrite INR_IZR_INZ, Z2Nat.id in M1, M2 by lia. unfold mean. split; apply (Rmult_le_reg_r (IZR L)); auto; unfold Rdiv; rewrite Rmult_assoc, Rinv_l by lra; lra. }
  assert (HF : forall l, ff (f l) /\ Rabs (R_of (f l)) <= T) by (intros l; apply residual_small; assumption).
  destruct (level_about o L g f T LO HL GF ltac:(lra) ltac:(lra) (fun l _ => HF l)) as [VF VB]. cbv zeta in VF, VB. set (G := fsub _ (fdiv _ _)) in *.
  assert (RD : rho * (hi - lo + / 200) <= 0.6501 * spread r + / 200).
  { assert (rho * (hi - lo + / 200) <= rho * (spread r + / 200)) by (apply Rmult_le_compat_l; lra). assert (rho * (spread r + / 200) <= 0.65001 * (spread r + / 200)) by (apply Rmult_le_compat_r; lra). lra. }
  exists (R_of G - T + rho * (lo - / 400 - mean) - / 50), (R_of G + T + rho * (hi + / 400 - mean) + / 50).
  assert (HD : lo <= hi). { destruct P as (P1 & _). destruct (P1 0%Z ltac:(lia)). lra. }
  assert (A1 : 0 <= rho * (mean - (lo - / 400)) <= rho * (hi - lo + / 200)) by (split; [apply Rmult_le_pos; lra|apply Rmult_le_compat_l; lra]).
  assert (A2 : 0 <= rho * (hi + / 400 - mean) <= rho * (hi - lo + / 200)) by (split; [apply Rmult_le_pos; lra|apply Rmult_le_compat_l; lra]).
  assert (VB2 := VB). apply Rabs_le_inv in VB2.
  split; [lra|]. split; [lra|]. split; [lra|]. intros l Hl. cbv zeta. unfold ambe_log_amplitude. cbv zeta. fold f. fold a. fold G.
  destruct (HF l) as [F1 F2]. destruct (predicted_about (d2f (dlit 65 100)) (p_L prev) L a f lo hi l HP ltac:(lia) Hl P RF ltac:(fold rho; lra) F1 ltac:(lra)) as (FF & E). fold rho mean in E.
  destruct (mixed_bounds (p_L prev) L a lo hi l HP ltac:(lia) Hl P) as [MB1 MB2]. set (x := mixed (p_L prev) L a l) in *.
  assert (B1 : rho * (lo - / 400) <= rho * x) by (apply Rmult_le_compat_l; lra). assert (B2 : rho * x <= rho * (hi + / 400)) by (apply Rmult_le_compat_l; lra).
  apply Rabs_le_inv in F2. assert (XB : Rabs (R_of (f l) + rho * (x - mean)) <= 100) by (apply Rabs_le; lra).
  pose proof u24_small as U. pose proof tiny_u as TU.
  assert (Z := about_add _ _ _ _ _ _ 150 (conj FF E) (about_self _ VF) ltac:(lra) ltac:(unfold huge; lra)). destruct Z as [Z1 Z2]. split; [exact Z1|]. apply Rabs_le_inv in Z2. lra.
Qed.
Lemma decoded_calm : forall r o L w0 v d cur prev c1 p1, cosine_in_unit o -> log2_in_six o -> is_bits 49 d -> (9 <= L <= 56)%Z -> small r cur -> calm r prev ->
  ambe_accepted L w0 (gstep r d) v cur prev c1 p1 ->
  (forall l, (1 <= l <= L)%Z -> rd (p_log2Ml c1) l = Ok (ambe_log_amplitude o L (block r L) (vector r d) (higher r d) (fadd (gstep r d) (fmul (flit 1 2) (p_gamma prev))) prev l)) ->
  calm r c1 /\ calm r p1.
Proof.
  intros r o L w0 v d cur prev c1 p1 CO LO Hd HL (LC & AC) CP AA AM. destruct CP as ((LP & AP) & (lo2 & hi2 & C1 & C2 & C3 & WP2) & (GF & GB) & HP).
  destruct (gain_next r d _ Hd GF GB) as [NF NB]. cbv zeta in NF, NB.
  destruct (new_narrow r o L d prev _ CO LO Hd HL (conj (conj LP AP) (conj (ex_intro _ lo2 (ex_intro _ hi2 (conj C1 (conj C2 (conj C3 WP2))))) (conj (conj GF GB) HP))) NF NB) as (lo & hi & B1 & B2 & B3 & NW). cbv zeta in NW.
  destruct AA as (EL & _ & _ & EG & _ & _ & _ & (LS & OUT) & _ & _ & (LX & X0 & X1 & X2) & EP).
  assert (IN : forall l, (1 <= l <= L)%Z -> log_at c1 l = ambe_log_amplitude o L (block r L) (vector r d) (higher r d) (fadd (gstep r d) (fmul (flit 1 2) (p_gamma prev))) prev l) by (intros l Hl; apply log_rd, AM, Hl).
  assert (EX : forall l, (0 <= l <= 56)%Z -> (l < 1 \/ L < l)%Z -> log_at c1 l = log_at cur l).
  { intros l Hl Ho. apply log_rd. rewrite OUT by exact Ho. apply rd_log; assumption. }
  set (g := fadd (gstep r d) (fmul (flit 1 2) (p_gamma prev))) in *. rewrite <- half_eq in EG. fold g in EG.
  split.
  - split; [split; [congruence|]|split; [|split]].
    + intros k Hk. destruct (Z_lt_ge_dec k 1); [rewrite EX by lia; auto|]. destruct (Z_lt_ge_dec L k); [rewrite EX by lia; auto|].
      rewrite IN by lia. destruct (NW k ltac:(lia)) as [N1 N2]. split; [exact N1|apply Rabs_le; lra].
    + exists lo, hi. split; [exact B1|]. split; [exact B2|]. split; [exact B3|]. rewrite EL. intros k Hk. rewrite IN by lia. apply NW. exact Hk.
    + unfold gain_within. rewrite EG. split; [exact NF|exact NB].
    + rewrite EL. lia.
  - assert (PL : p_L p1 = p_L prev) by (rewrite EP; reflexivity). assert (PG : p_gamma p1 = p_gamma prev) by (rewrite EP; reflexivity).
    assert (G1 : forall l, (1 <= l <= 56)%Z -> (l <= p_L prev \/ L < l)%Z -> log_at p1 l = log_at prev l).
    { intros l Hl Ho. apply log_rd. rewrite X1 by lia. apply rd_log; [assumption|lia]. }
    assert (G2 : forall l, (p_L prev < l <= L)%Z -> log_at p1 l = log_at prev (p_L prev)).
    { intros l Hl. apply log_rd. rewrite X2 by lia. apply rd_log; [assumption|lia]. }
    assert (G0 : log_at p1 0 = log_at p1 1).
    { apply log_rd. rewrite X0. apply rd_log; [congruence|lia]. }
    assert (K : forall k, (1 <= k <= 56)%Z -> ff (log_at p1 k) /\ Rabs (R_of (log_at p1 k)) <= log_size r).
    { intros k Hk. destruct (Z_le_gt_dec k (p_L prev)); [rewrite G1 by lia; apply AP; lia|]. destruct (Z_lt_ge_dec L k); [rewrite G1 by lia; apply AP; lia|]. rewrite G2 by lia. apply AP. lia. }
    split; [split; [congruence|]|split; [|split]].
    + intros k Hk. destruct (Z.eq_dec k 0) as [->|N]; [rewrite G0; apply K; lia|apply K; lia].
    + exists lo2, hi2. split; [exact C1|]. split; [exact C2|]. split; [exact C3|]. rewrite PL. intros k Hk. rewrite G1 by lia. apply WP2. exact Hk.
    + unfold gain_within. rewrite PG. split; [exact GF|exact GB].
    + rewrite PL. exact HP.
Qed.
Lemma calm_same : forall r m m', p_log2Ml m' = p_log2Ml m -> p_L m' = p_L m -> p_gamma m' = p_gamma m -> calm r m -> calm r m'.
Proof. intros r m m' E F G H. unfold calm, small, narrow, gain_within, log_at in *. rewrite E, F, G. exact H. Qed.
Lemma small_same : forall r m m', p_log2Ml m' = p_log2Ml m -> small r m -> small r m'.
Proof. intros r m m' E H. unfold small, log_at in *. rewrite E. exact H. Qed.
Lemma calm_zero : forall r m, p_log2Ml m = repeat fzero 57 -> p_gamma m = fzero -> (1 <= p_L m <= 56)%Z -> calm r m.
Proof.
  intros r m E G HL. assert (Q : forall k, log_at m k = S754_zero false).
  { intros k. unfold log_at. rewrite E. apply nth_repeat. }
  destruct (sizes_ok r) as (S1 & S2 & S3 & S4 & S5 & S6 & S7 & _).
  split; [|split; [|split; [|exact HL]]].
  - split; [now rewrite E|]. intros k Hk. rewrite Q, R_zero, Rabs_R0. split; [split; reflexivity|lra].
  - exists 0, 0. split; [lra|]. split; [lra|]. split; [lra|]. intros k Hk. rewrite Q, R_zero. lra.
  - unfold gain_within. rewrite G. split; [split; reflexivity|]. change (R_of fzero) with (R_of (S754_zero false)). rewrite R_zero, Rabs_R0. lra.
Qed.
Definition calm_state (r : codec) (st : dstate) : Prop := small r (cur_of st) /\ calm r (prev_of st).
Lemma start_calm : forall r, calm_state r start_ambe.
Proof. intros r. assert (Q : calm r ambe_initial) by (apply calm_zero; [reflexivity|reflexivity|cbn; lia]). split; [exact (proj1 Q)|exact Q]. Qed.
Lemma rest_calm : forall r o a aout need n c1 p1 enh uvq t b str st' t', calm r c1 -> calm r p1 -> wf_parms c1 -> wf_parms p1 -> wf_parms enh -> (9 <= p_L c1 <= 56)%Z -> (0 <= p_L p1 <= 56)%Z -> length aout = 160%nat ->
  voice_rest o a aout need n c1 p1 enh uvq t = Ok (b, str, st', t') -> calm_state r st'.
Proof.
  intros r o a aout need n c1 p1 enh uvq t b str st' t' C1 P1 WC WP WE HC HP LA H. unfold voice_rest in H. destruct (need && (3 <=? p_repeat p1)%Z).
  - apply bind_inv in H as ([b0 t0] & _ & H). apply Ok4 in H as (_ & _ & <- & _). apply start_calm.
  - apply bind_inv in H as ([[b0 s0] t0] & HS & H). apply Ok4 in H as (_ & _ & <- & _). set (m := if need then one_more p1 else no_repeats c1) in *.
    assert (CM : calm r m) by (unfold m; destruct need; [exact (calm_same r p1 _ eq_refl eq_refl eq_refl P1)|exact (calm_same r c1 _ eq_refl eq_refl eq_refl C1)]).
    assert (WM : wf_parms m) by (unfold m; destruct need; assumption). assert (LM : (0 <= p_L m <= 56)%Z) by (unfold m; destruct need; [exact HP|change (0 <= p_L c1 <= 56)%Z; lia]).
    destruct (speak_inv _ _ _ _ _ _ _ _ _ _ WM WE LM LA HS) as (c' & -> & B & _). split; [|exact CM]. cbn [cur_of]. apply (small_same r m); [unfold but_speech in B; rewrite B; reflexivity|exact (proj1 CM)].
Qed.
Lemma voice_calm2450 : forall o a cl st t b str st' t' c p e, cosine_in_unit o -> log2_in_six o -> ambe_ok cl -> sane_state st -> begin st = (c, p, e) -> calm_state R2450 (c, p, e) ->
  do2450 o a cl st t = Ok (b, str, st', t') -> kind_of cl = Voice -> calm_state R2450 st'.
Proof.
  intros o a cl st t b str st' t' c p e CO LO (Hd & Hn & LB) SS BG (CC & CP) H K. unfold do2450 in H. unfold kind_of in K. cbn [cur_of prev_of] in CC, CP.
  assert (WP : wf_parms (prev_of st)) by (destruct st as [[x y] z]; destruct SS as (_ & SP & _); apply SP).
  pose proof (sane_begin st SS) as SB. rewrite BG in SB. destruct SB as (SC & SP & SE).
  assert (SW : sane (with_errors (ac_errors cl) (ambe_rate (p_errorRate p) (ac_errors cl)) c)) by (apply sane_with_errors; assumption).
  destruct (kind_cases (ac_bits cl) (ac_errors cl) Hd) as [(T & N & E)|[(T & N & E)|(NT & NE & E)]]; [destruct (tone_hz (tone_id (ac_bits cl))); congruence|congruence|].
  destruct (mbe_decodeAmbe2450ParmsInternal o (ac_bits cl) (with_errors (ac_errors cl) (ambe_rate (p_errorRate p) (ac_errors cl)) c) p (ac_errors cl)) as [[[bad c1] p1]|w] eqn:HD.
  - destruct (ambe2450_accepted _ _ _ _ _ _ _ _ Hd (proj1 (proj1 SW)) NT NE HD) as [-> AC].
    assert (HW : pitch_in_range (w0_2450 (pitch2450 (ac_bits cl)))) by (apply w0_range; pose proof (pitch2450_range _ Hd); unfold erasure2450 in NE; lia).
    pose proof (harmonics2450_bits _ Hd NE) as HL. destruct (accepted_sane _ _ _ _ _ _ _ _ AC SW SP HL HW) as [S1 S2].
    assert (RR : (p_repeat p1 = p_repeatCount p1 /\ 0 <= p_repeatCount p1 <= 4)%Z) by (split; apply S2).
    rewrite (voice2450 _ _ _ _ _ _ _ _ _ _ _ _ _ _ _ WP BG HD (proj1 S2)) in H by lia.
    set (W := with_errors (ac_errors cl) (ambe_rate (p_errorRate p) (ac_errors cl)) c) in *. assert (CW : small R2450 W) by exact CC. clearbody W.
    assert (HU : usable_history (harmonics2450 (pitch2450 (ac_bits cl))) p).
    { split; [apply SP|]. assert (0 <= p_L p <= 56)%Z by apply SP. destruct (Z.eq_dec (p_L p) 56) as [E6|E6]; [|left; lia]. right. split; [exact E6|].
      destruct (Z.eq_dec (harmonics2450 (pitch2450 (ac_bits cl))) 23); [left; assumption|]. destruct (Z.eq_dec (harmonics2450 (pitch2450 (ac_bits cl))) 46); [right; assumption|].
      rewrite (ambe2450_outside o (ac_bits cl) W p (ac_errors cl)) in HD; try assumption; [discriminate|apply SW|apply SP]. }
    pose proof (amplitudes2450 o (ac_bits cl) W p (ac_errors cl) 0 c1 p1 Hd (proj1 SW) NT NE HU HD) as AM.
    pose proof (decoded_calm R2450 o) as DC. rewrite vector_2450, higher_2450, block_2450, gstep_2450 in DC. rewrite logs_2450 in AM.
    destruct (DC _ _ _ (ac_bits cl) W p c1 p1 CO LO Hd HL CW CP AC) as [D1 D2]; [intros l Hl; apply (proj1 (AM l Hl))|]. clear DC.
    assert (EL : p_L c1 = harmonics2450 (pitch2450 (ac_bits cl))) by apply AC.
    eapply rest_calm; [exact D1|exact D2|exact (proj1 S1)|exact (proj1 S2)|exact (proj1 SE)|rewrite EL; exact HL|apply S2|exact LB|exact H].
  - exfalso. destruct st as [[x y] z]. unfold mbe_processAmbe2450Dataf_internal in H. cbn [prev_of] in WP. rewrite ensure_ok in H by exact WP. cbn [bind] in H. rewrite BG in H. cbn [bind] in H. rewrite entry_eq, HD in H. discriminate H.
Qed.
Lemma voice_calm2400 : forall o a cl st t b str st' t' c p e, cosine_in_unit o -> log2_in_six o -> ambe_ok cl -> sane_state st -> begin st = (c, p, e) -> calm_state R2400 (c, p, e) -> exp2_close o (exponent2400 (pitch2400 (ac_bits cl))) ->
  do2400 o a cl st t = Ok (b, str, st', t') -> voice2400 cl = true -> calm_state R2400 st'.
Proof.
  intros o a cl st t b str st' t' c p e CO LO (Hd & Hn & LB) SS BG (CC & CP) HX H V. unfold do2400 in H. assert (HB : (pitch2400 (ac_bits cl) < 126)%Z) by (unfold voice2400 in V; lia). cbn [cur_of prev_of] in CC, CP.
  assert (WP : wf_parms (prev_of st)) by (destruct st as [[x y] z]; destruct SS as (_ & SP & _); apply SP).
  pose proof (sane_begin st SS) as SB. rewrite BG in SB. destruct SB as (SC & SP & SE).
  assert (SW : sane (with_errors (ac_errors cl) (ambe_rate (p_errorRate p) (ac_errors cl)) c)) by (apply sane_with_errors; assumption).
  destruct (mbe_decodeAmbe2400Parms o (ac_bits cl) (with_errors (ac_errors cl) (ambe_rate (p_errorRate p) (ac_errors cl)) c) p) as [[[bad c1] p1]|w] eqn:HD.
  - destruct (ambe2400_accepted _ _ _ _ _ _ _ Hd (proj1 (proj1 SW)) HB HX HD) as [-> AC].
    assert (HW : pitch_in_range (radians (exp2f o (exponent2400 (pitch2400 (ac_bits cl)))))) by (apply f0_range; [pose proof (pitch2400_range _ Hd); lia|exact HX]).
    pose proof (harmonics2400_range _ Hd HB) as HL. destruct (accepted_sane _ _ _ _ _ _ _ _ AC SW SP HL HW) as [S1 S2].
    assert (RR : (p_repeat p1 = p_repeatCount p1 /\ 0 <= p_repeatCount p1 <= 4)%Z) by (split; apply S2).
    rewrite (voice2400_eq _ _ _ _ _ _ _ _ _ _ _ _ _ _ WP BG HD (proj1 S2)) in H by lia.
    set (W := with_errors (ac_errors cl) (ambe_rate (p_errorRate p) (ac_errors cl)) c) in *. assert (CW : small R2400 W) by exact CC. clearbody W.
    assert (HU : usable_history (harmonics2400 (pitch2400 (ac_bits cl))) p).
    { split; [apply SP|]. assert (0 <= p_L p <= 56)%Z by apply SP. destruct (Z.eq_dec (p_L p) 56) as [E6|E6]; [|left; lia]. right. split; [exact E6|].
      destruct (Z.eq_dec (harmonics2400 (pitch2400 (ac_bits cl))) 23); [left; assumption|]. destruct (Z.eq_dec (harmonics2400 (pitch2400 (ac_bits cl))) 46); [right; assumption|].
      rewrite (ambe2400_outside o (ac_bits cl) W p) in HD; try assumption; [discriminate|apply SW|apply SP]. }
    pose proof (amplitudes2400 o (ac_bits cl) W p 0 c1 p1 Hd (proj1 SW) HB HX HU HD) as AM.
    pose proof (decoded_calm R2400 o) as DC. rewrite vector_2400, higher_2400, block_2400, gstep_2400 in DC. rewrite logs_2400 in AM.
    destruct (DC _ _ _ (ac_bits cl) W p c1 p1 CO LO Hd HL CW CP AC) as [D1 D2]; [intros l Hl; apply (proj1 (AM l Hl))|]. clear DC.
    assert (EL : p_L c1 = harmonics2400 (pitch2400 (ac_bits cl))) by apply AC.
    eapply rest_calm; [exact D1|exact D2|exact (proj1 S1)|exact (proj1 S2)|exact (proj1 SE)|rewrite EL; exact HL|apply S2|exact LB|exact H].
  - exfalso. destruct st as [[x y] z]. unfold mbe_processAmbe2400Dataf in H. cbn [prev_of] in WP. rewrite ensure_ok in H by exact WP. cbn [bind] in H. rewrite BG in H. cbn [bind] in H. rewrite entry_eq, HD in H. discriminate H.
Qed.
Lemma ambe_calm : forall r o a cl st t b str st' t', cosine_in_unit o -> log2_in_six o -> good_exp2 o r -> ambe_ok cl -> sane_state st -> thread_ok t -> calm_state r (begin st) ->
  do_ambe r o a cl st t = Ok (b, str, st', t') -> calm_state r st'.
Proof.
  intros r o a cl st t b str st' t' CO LO GX HC SS TH CS H. destruct (begin st) as [[c p] e] eqn:BG. destruct r; cbn [do_ambe] in H.
  - destruct (kind_of cl) eqn:K; [eapply voice_calm2450; eassumption| | |];
      destruct (step2450_ok _ _ _ _ _ _ _ _ _ _ _ _ HC SS TH H BG) as (_ & _ & _ & _ & _ & S); unfold step2450 in S; cbv zeta in S; rewrite K in S.
    + destruct S as (_ & _ & ->). set (m := erased _ p) in *. assert (Q : calm R2450 m) by (apply calm_zero; [reflexivity|reflexivity|change (p_L m) with 9%Z; lia]). split; [exact (proj1 Q)|exact Q].
    + destruct S as (_ & _ & ->). destruct CS as [C1 C2]. unfold tone_turned. split; [destruct (o_tones o); exact C1|exact C2].
    + destruct S as (_ & S). destruct (p_repeatCount p <? 4)%Z.
      * destruct S as (E1 & E2 & _). destruct CS as [C1 C2]. unfold calm_state. rewrite E1, E2. split; [exact C1|exact C2].
      * destruct S as (-> & _). apply start_calm.
  - destruct (voice2400 cl) eqn:V.
    + eapply voice_calm2400; try eassumption. cbn [good_exp2] in GX. apply GX. destruct HC as (Hd & _). pose proof (pitch2400_range _ Hd). unfold voice2400 in V. lia.
    + rewrite (tone2400_eq _ _ _ _ _ _ _ _ HC SS BG V) in H. apply bind_inv in H as ([b0 t0] & _ & H). apply Ok4 in H as (_ & _ & <- & _). apply start_calm.
Qed.
Lemma ambe_bounded : forall r o a cs st t s st' t', cosine_in_unit o -> log2_in_six o -> good_exp2 o r -> Forall ambe_ok cs -> sane_state st -> foreign (prev_of st) = true \/ st = start_ambe -> thread_ok t -> cs <> [] ->
  ambe_stream (do_ambe r o a) cs st t = Ok (s, st', t') -> logs_within (log_size r) (prev_of st') /\ gain_within (gain_range r) (prev_of st').
Proof.
  intros r o a cs st t s st' t' CO LO GX HF SS H0 TH NE H.
  assert (C0 : calm_state r (begin st)).
  { destruct H0 as [H0| ->]; [unfold begin; rewrite H0; apply start_calm|]. rewrite begin_own; [apply start_calm|apply foreign_exact, start_exact]. }
  destruct cs as [|c cs]; [congruence|]. cbn [ambe_stream] in H. inversion HF as [|x xs Hc HF']; subst. apply bind_inv in H as ([[[b1 s1] st1] t1] & H1 & H). apply bind_inv in H as ([[r1 st2] t2] & H2 & H). injection H as <- <- <-.
  destruct (ambe_step _ _ _ _ _ _ _ _ _ _ GX Hc SS TH H1) as (S1 & T1 & _ & _ & _ & AD).
  pose proof (ambe_calm _ _ _ _ _ _ _ _ _ _ CO LO GX Hc SS TH C0 H1) as C1. pose proof (ad_foreign _ _ _ _ _ _ AD (begin_ours st)) as F1.
  assert (I : sane_state st2 /\ thread_ok t2 /\ foreign (prev_of st2) = false /\ calm_state r st2).
  { apply (stream_inv (do_ambe r o a) ambe_ok (fun st t => sane_state st /\ thread_ok t /\ foreign (prev_of st) = false /\ calm_state r st)) in H2; auto.
    intros c0 st0 t0 b0 s0 st3 t3 Hc0 (A1 & A2 & A3 & A4) D. destruct (ambe_step _ _ _ _ _ _ _ _ _ _ GX Hc0 A1 A2 D) as (B1 & B2 & _ & _ & _ & BD).
    split; [exact B1|]. split; [exact B2|]. split; [apply (ad_foreign _ _ _ _ _ _ BD), begin_ours|].
    eapply ambe_calm; [exact CO|exact LO|exact GX|exact Hc0|exact A1|exact A2|rewrite begin_own by exact A3; exact A4|exact D]. }
  destruct I as (_ & _ & _ & (_ & ((LN & A) & _ & G & _))). split; [|exact G]. intros l Hl. exists (log_at (prev_of st2) l). split; [apply rd_log; assumption|apply A, Hl].
Qed.
Lemma unit_log2 : log2_in_six unit_oracle.
Proof.
  intros L HL. replace (log2f unit_oracle (f_of_Z L)) with (f_of_Z 3) by (vm_compute; reflexivity). destruct (of_Z_R 3) as [A B]; [lia|]. split; [exact A|]. rewrite B, Rabs_pos_eq; lra.
Qed.
