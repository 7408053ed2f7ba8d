(* The vector transforms in exact arithmetic. *)
From Coq Require Import ZArith List Bool Reals Lia Lra.
From Verif Require Import Res F32 MFft MFftSimd SpecFft SpecFftSimd PFftSym PFftRun PCpx PFftReal PFftSimd.
Import ListNotations.
Local Open Scope Z_scope.

Notation exs := exact_simd.
Lemma scales_exact : scales exs.
Proof. intros z Hz. unfold exact_simd, exact. cbn [s_ar a_mul a_int a_argh]. rewrite mult_IZR. field. Qed.
Lemma e_R : forall c j q, ec exs j q = ev c (tw_cos 1 j q) /\ es exs j q = (- ev c (tw_sin 1 j q))%R.
Proof.
  intros c j q. unfold ec, es, tw_cos, tw_sin. cbn [eval]. unfold exact_simd, exact. cbn [s_ar s_arg a_cos a_sin a_mul a_int a_argh]. rewrite Z.mul_1_r.
  replace (- 2 * PI * IZR j * IZR q / 256)%R with (- (IZR q * (IZR j * (2 * PI / 256))))%R by field. rewrite cos_neg, sin_neg. split; reflexivity.
Qed.
Lemma rot_R : forall c q j, 0 <= j <= 3 -> rot exs c q j = if j =? 0 then (ev c (fst (plain 64 1 0 q)), ev c (snd (plain 64 1 0 q))) else (ev c (fst (twid 64 1 0 q j)), ev c (snd (twid 64 1 0 q j))).
Proof.
  intros c q j Hj. unfold rot. destruct (Z.eqb_spec j 0) as [->|N]; [reflexivity|]. unfold twid, cplxmul, cplxmulconj, terms. cbn [fst snd a_add a_sub a_mul eval]. destruct (e_R c j q) as [-> ->].
  replace (64 * (0 + 1 * j)) with (64 * j) by ring. generalize (ev c (tw_cos 1 j q)) (ev c (tw_sin 1 j q)). intros a b. unfold exact_simd, exact. cbn [s_ar a_add a_sub a_mul]. f_equal; ring.
Qed.
Lemma fin_special : forall c p, List.In p [0; 1; 128; 129; 64; 65; 192; 193] -> fin_cell exs c p = fstep exact 64 1 c (fwd_pos p).
Proof.
  intros c p H. assert (SQ : (sqrt 2 <> 0)%R) by (apply Rgt_not_eq, sqrt_lt_R0; lra).
  repeat (destruct H as [<-|H]; [unfold fin_cell, fwd_pos, fstep, fterm; cbn [Z.eqb Pos.eqb Z.sub Z.add Z.opp Pos.add Z.pos_sub Pos.pred_double Z.mul Pos.mul]; 
    match goal with |- context [fterm_at 64 1 ?a ?b] => let a' := eval vm_compute in a in let b' := eval vm_compute in b in change (fterm_at 64 1 a b) with (fterm_at 64 1 a' b') end;
    unfold fterm_at; cbn [Z.eqb Pos.eqb Z.sub Z.add Z.opp Pos.add Z.pos_sub Pos.pred_double Z.mul Pos.mul eval Z.succ_double Z.pred_double Z.double Pos.succ];
    unfold exact_simd, exact; cbn [s_ar s_h s_neg a_add a_sub a_mul a_mh]; try ring; field; exact SQ|]).
  destruct H.
Qed.
Definition bin_at (t q : Z) : Z := if t =? 0 then q else if t =? 1 then 64 - q else if t =? 2 then 64 + q else 128 - q.
Lemma fin_at : forall {B} (sa : sarith B) c t q, 0 <= t <= 3 -> 0 < q < 32 -> fin_cell sa c (2 * bin_at t q) = fst (fin_bin sa c t q) /\ fin_cell sa c (2 * bin_at t q + 1) = snd (fin_bin sa c t q).
Proof.
  intros B sa c t q Ht Hq. set (f := bin_at t q). assert (T : t = 0 \/ t = 1 \/ t = 2 \/ t = 3) by lia.
  assert (F : 0 < f < 128 /\ f <> 32 /\ f <> 64 /\ f <> 96 /\ f / 32 = t /\ (if t =? 0 then f else if t =? 1 then 64 - f else if t =? 2 then f - 64 else 128 - f) = q).
  { unfold f, bin_at. destruct T as [->|[->|[->| ->]]]; cbn [Z.eqb Pos.eqb]; repeat split; try lia.
    - symmetry. apply Z.div_unique with q; lia.
    - symmetry. apply Z.div_unique with (32 - q); lia.
    - symmetry. apply Z.div_unique with q; lia.
    - symmetry. apply Z.div_unique with (32 - q); lia. }
  destruct F as (F & N1 & N2 & N3 & E1 & E2). clearbody f. unfold fin_cell. cbv zeta. split.
  - do 8 no. replace (2 * f / 2) with f by (symmetry; rewrite Z.mul_comm; now apply Z.div_mul). rewrite E1, E2. rewrite (Z.mul_comm 2 f), Z.mod_mul by lia. reflexivity.
  - do 8 no. replace ((2 * f + 1) / 2) with f by (symmetry; apply half_even). rewrite E1, E2. replace ((2 * f + 1) mod 2) with 1 by (rewrite Z.add_comm, Z.mul_comm, Z.mod_add by lia; reflexivity). reflexivity.
Qed.
Lemma fin_cases : forall p, 0 <= p < 256 -> List.In p [0; 1; 128; 129; 64; 65; 192; 193] \/ exists t q, 0 <= t <= 3 /\ 0 < q < 32 /\ (p = 2 * bin_at t q \/ p = 2 * bin_at t q + 1).
Proof.
  intros p Hp. destruct (in_dec Z.eq_dec p [0; 1; 128; 129; 64; 65; 192; 193]) as [I|N]; [now left|right]. cbn [List.In] in N.
  pose proof (Z.div_mod p 2 ltac:(lia)). pose proof (Z.mod_pos_bound p 2 ltac:(lia)). set (f := p / 2) in *.
  destruct (Z_lt_le_dec f 32); [exists 0, f; unfold bin_at; cbn [Z.eqb Pos.eqb]; lia|]. destruct (Z_lt_le_dec f 64); [exists 1, (64 - f); unfold bin_at; cbn [Z.eqb Pos.eqb]; lia|].
  destruct (Z_lt_le_dec f 96); [exists 2, (f - 64); unfold bin_at; cbn [Z.eqb Pos.eqb]; lia|]. exists 3, (128 - f). unfold bin_at. cbn [Z.eqb Pos.eqb]. lia.
Qed.
Lemma fin_R : forall c p, 0 <= p < 256 -> fin_cell exs c p = fstep exact 64 1 c (fwd_pos p).
Proof.
  intros c p Hp. destruct (fin_cases p Hp) as [I|(t & q & Ht & Hq & E)]; [now apply fin_special|].
  destruct (fin_at exs c t q Ht Hq) as [E1 E2]. 
  destruct (fterm_quarter 64 1 0 q ltac:(lia) ltac:(lia) (bin_at t q) t) as [F1 F2]; [unfold bin_at; assert (T : t = 0 \/ t = 1 \/ t = 2 \/ t = 3) by lia; destruct T as [->|[->|[->| ->]]]; cbn [Z.eqb Pos.eqb]; lia|now exists 32|].
  assert (B : 0 < bin_at t q < 128) by (unfold bin_at; destruct (t =? 0), (t =? 1), (t =? 2); lia).
  assert (P : forall r, 0 <= r < 256 -> fstep exact 64 1 c r = ev c (fterm_at 64 1 0 r)) by (intros r Hr; exact (fstep_at 64 1 c 0 r ltac:(lia) Hr)).
  pose proof (rot_R c q 0 ltac:(lia)) as R0. pose proof (rot_R c q 1 ltac:(lia)) as R1. pose proof (rot_R c q 2 ltac:(lia)) as R2. pose proof (rot_R c q 3 ltac:(lia)) as R3. cbn [Z.eqb] in R0, R1, R2, R3.
  assert (H : fst (fin_bin exs c t q) = ev c (fterm_at 64 1 0 (2 * bin_at t q - 1)) /\ snd (fin_bin exs c t q) = ev c (fterm_at 64 1 0 (2 * bin_at t q))).
  { rewrite F1, F2. unfold fin_bin. rewrite R0, R1, R2, R3. cbv zeta. generalize (plain 64 1 0 q) (twid 64 1 0 q 1) (twid 64 1 0 q 2) (twid 64 1 0 q 3). intros s0 s1 s2 s3.
    assert (T : t = 0 \/ t = 1 \/ t = 2 \/ t = 3) by lia. destruct T as [->|[->|[->| ->]]]; cbn [Z.eqb Pos.eqb fst snd eval]; unfold exact_simd; cbn [s_ar]; change (a_add exact) with Rplus; change (a_sub exact) with Rminus; split; ring. }
  unfold fwd_pos. destruct H as [H1 H2]. destruct E as [-> | ->].
  - rewrite E1, H1. do 2 no. now rewrite P by lia.
  - rewrite E2, H2. do 2 no. rewrite P by lia. f_equal. f_equal. lia.
Qed.
Lemma vforward_R : forall c p, 0 <= p < 256 -> vforward exs c p = forward exact c p.
Proof. intros c p H. unfold vforward, forward. change (s_ar exs) with exact. now apply fin_R. Qed.
Theorem vfft_exact : forall x out scr, length x = 256%nat -> length out = 64%nat -> length scr = 64%nat -> vfft256 exs x out scr = Ok (packed (bin_re x) (bin_im x)).
Proof.
  intros x out scr Lx Lo Ls. rewrite vfft256_run by (try assumption; exact scales_exact). rewrite <- (fft_exact x (fresh 256) (fresh 256) Lx eq_refl eq_refl). rewrite fft256_run by (assumption || reflexivity). f_equal.
  apply map_ext_in. intros p Hp. unfold zs in Hp. apply in_map_iff in Hp. destruct Hp as (n & <- & Hn). apply in_seq in Hn. apply vforward_R. lia.
Qed.

(* ---- backward ---- *)
Lemma pre_R : forall y p, 0 <= p < 256 -> pre_cell exs y p = bstep exact 64 1 (fun k => y (bwd_pos k)) p.
Proof.
  intros y p Hp. unfold pre_cell. cbv zeta. set (c := fun k => y (bwd_pos k)). pose proof (Z.div_mod p 64 ltac:(lia)) as D. pose proof (Z.mod_pos_bound p 64 ltac:(lia)) as M.
  assert (J : 0 <= p / 64 <= 3) by (split; [apply Z.div_pos; lia|apply Z.lt_succ_r, Z.div_lt_upper_bound; lia]). set (j := p / 64) in *. set (r := p mod 64) in *.
  assert (E : bstep exact 64 1 c p = ev c (bterm_at 64 1 0 j r)). { rewrite D. replace (64 * j + r) with (64 * (0 + 1 * j) + r) by ring. apply bstep_at; lia. }
  rewrite E. clearbody j r. clear E D p Hp. unfold bterm_at. cbv zeta. change (4 * 64 * 0) with 0. change (64 - 1) with 63. assert (T : j = 0 \/ j = 1 \/ j = 2 \/ j = 3) by lia.
  assert (S2 : (sqrt 2 = 2 * / sqrt 2)%R) by (assert (SQ : (sqrt 2 <> 0)%R) by (apply Rgt_not_eq, sqrt_lt_R0; lra); apply (Rmult_eq_reg_r (sqrt 2)); [|exact SQ]; rewrite sqrt_def by lra; field; exact SQ).
  destruct (Z.eqb_spec r 0) as [R0|R0]; [|destruct (Z.eqb_spec r 63) as [R1|R1]].
  - destruct T as [->|[->|[->| ->]]]; cbn [Z.eqb Pos.eqb eval]; subst c; cbv beta;
      cbn [bwd_pos Z.eqb Pos.eqb Z.sub Z.add Z.opp Pos.add Z.pos_sub Pos.pred_double Z.mul Pos.mul]; unfold bwd_pos; cbn [Z.eqb Pos.eqb Z.sub Z.add Z.opp Pos.add Z.pos_sub Pos.pred_double Z.mul Pos.mul Pos.succ];
      unfold exact_simd, exact; cbn [s_ar s_2 s_neg a_add a_sub a_mul a_two a_int]; ring.
  - destruct T as [->|[->|[->| ->]]]; cbn [Z.eqb Pos.eqb eval]; subst c; cbv beta;
      cbn [bwd_pos Z.eqb Pos.eqb Z.sub Z.add Z.opp Pos.add Z.pos_sub Pos.pred_double Z.mul Pos.mul]; unfold bwd_pos; cbn [Z.eqb Pos.eqb Z.sub Z.add Z.opp Pos.add Z.pos_sub Pos.pred_double Z.mul Pos.mul Pos.succ];
      unfold exact_simd, exact; cbn [s_ar s_2 s_neg a_add a_sub a_mul a_two a_ms a_int]; ring.
  - set (q := (r + 1) / 2). assert (Q : 0 < q < 32). { unfold q. pose proof (Z.div_mod (r + 1) 2 ltac:(lia)). pose proof (Z.mod_pos_bound (r + 1) 2 ltac:(lia)). lia. } clearbody q.
    assert (C : forall f, 0 < f < 128 -> ev c (In (0 + (2 * f - 1))) = y (2 * f) /\ ev c (In (0 + 2 * f)) = y (2 * f + 1)).
    { intros f Hf. cbn [eval]. subst c. cbv beta. unfold bwd_pos. rewrite !Z.add_0_l. do 4 no. replace (2 * f - 1 + 1) with (2 * f) by lia. split; reflexivity. }
    destruct (C q ltac:(lia)) as [A1 A2]. destruct (C (64 - q) ltac:(lia)) as [B1 B2]. destruct (C (64 + q) ltac:(lia)) as [C1 C2]. change (2 * 64 - q) with (128 - q). destruct (C (128 - q) ltac:(lia)) as [D1 D2]. clear C.
    destruct (e_R c 1 q) as [-> ->]. destruct (e_R c 2 q) as [-> ->]. destruct (e_R c 3 q) as [-> ->].
    revert A1 A2 B1 B2 C1 C2 D1 D2. generalize (In (0 + (2 * q - 1))) (In (0 + 2 * q)) (In (0 + (2 * (64 - q) - 1))) (In (0 + 2 * (64 - q))) (In (0 + (2 * (64 + q) - 1))) (In (0 + 2 * (64 + q))) (In (0 + (2 * (128 - q) - 1))) (In (0 + 2 * (128 - q))).
    intros a1 a2 b1 b2 d1 d2 f1 f2. generalize (y (2 * q)) (y (2 * q + 1)) (y (2 * (64 - q))) (y (2 * (64 - q) + 1)) (y (2 * (64 + q))) (y (2 * (64 + q) + 1)) (y (2 * (128 - q))) (y (2 * (128 - q) + 1)). intros x1 x2 x3 x4 x5 x6 x7 x8 A1 A2 B1 B2 C1 C2 D1 D2.
    unfold cplxmul, cplxmulconj, terms, exact_simd. cbn [s_ar a_add a_sub a_mul].
    assert (TC : forall j', exists t, ev c (tw_cos 1 j' q) = t) by (intros; eexists; reflexivity). assert (TS : forall j', exists t, ev c (tw_sin 1 j' q) = t) by (intros; eexists; reflexivity).
    destruct (TC 1) as [t1 E1]. destruct (TC 2) as [t2 E2]. destruct (TC 3) as [t3 E3]. destruct (TS 1) as [w1 G1]. destruct (TS 2) as [w2 G2]. destruct (TS 3) as [w3 G3]. 
    destruct T as [->|[->|[->| ->]]]; cbn [Z.eqb Pos.eqb fst snd]; destruct (Z.odd r); cbn [eval]; rewrite ?A1, ?A2, ?B1, ?B2, ?C1, ?C2, ?D1, ?D2, ?E1, ?E2, ?E3, ?G1, ?G2, ?G3; unfold exact; cbn [a_add a_sub a_mul]; ring.
Qed.
Lemma bstep_block : forall m l c d k j r, 0 < m -> 0 < l -> 4 * m * l = 256 -> (forall i, 0 <= i < 256 -> c i = d i) -> 0 <= k < l -> 0 <= j < 4 -> 0 <= r < m -> (m = 1 \/ exists h, m = 2 * h) ->
  bstep exact m l c (m * (k + l * j) + r) = bstep exact m l d (m * (k + l * j) + r).
Proof.
  intros m l c d k j r Hm Hl HL H Hk Hj Hr HE.
  assert (S : forall q, 0 <= q < m -> spec m (block (bstep exact m l c) m (k + l * j)) q = spec m (block (bstep exact m l d) m (k + l * j)) q).
  { intros q Hq. rewrite !(bstep_spec m l) by assumption. unfold split4. cbv zeta. assert (X : forall f, 0 <= f < 4 * m -> spec (4 * m) (block c (4 * m) k) f = spec (4 * m) (block d (4 * m) k) f).
    { intros f Hf. assert (B : forall i, 0 <= i < 4 * m -> block c (4 * m) k i = block d (4 * m) k i) by (intros i Hi; unfold block; apply H; nia).
      unfold spec. destruct (Z.eqb_spec f 0); [now rewrite B by lia|]. destruct (Z.ltb_spec (2 * f) (4 * m)); [now rewrite !B by lia|]. destruct (Z.eqb_spec (2 * f) (4 * m)); now rewrite !B by lia. }
    rewrite !X by lia. reflexivity. }
  change (block (bstep exact m l c) m (k + l * j) r = block (bstep exact m l d) m (k + l * j) r).
  destruct (Z.eq_dec r 0) as [->|N0]; [specialize (S 0 ltac:(lia)); rewrite !spec_0 in S; exact (f_equal fst S)|].
  destruct HE as [->|[h ->]]; [lia|].
  destruct (Z.eq_dec r (2 * h - 1)) as [->|N1]; [specialize (S h ltac:(lia)); rewrite !spec_mid in S by lia; exact (f_equal fst S)|].
  pose proof (Z.div_mod (r + 1) 2 ltac:(lia)) as D. pose proof (Z.mod_pos_bound (r + 1) 2 ltac:(lia)) as M. set (q := (r + 1) / 2) in *. clearbody q. specialize (S q ltac:(lia)). rewrite !spec_low in S by lia.
  assert (C : r = 2 * q - 1 \/ r = 2 * q) by lia. destruct C as [C|C]; rewrite C; [exact (f_equal fst S)|exact (f_equal snd S)].
Qed.
Lemma bstep_ext : forall m l c d p, 0 < m -> 0 < l -> 4 * m * l = 256 -> (m = 1 \/ exists h, m = 2 * h) -> (forall i, 0 <= i < 256 -> c i = d i) -> 0 <= p < 256 -> bstep exact m l c p = bstep exact m l d p.
Proof.
  intros m l c d p Hm Hl HL HE H Hp. pose proof (Z.div_mod p m ltac:(lia)) as D. pose proof (Z.mod_pos_bound p m ltac:(lia)) as M. pose proof (Z.div_mod (p / m) l ltac:(lia)) as D2. pose proof (Z.mod_pos_bound (p / m) l ltac:(lia)) as M2.
  rewrite D, D2. rewrite (Z.add_comm (l * _)). apply bstep_block; try assumption. assert (0 <= p / m) by (apply Z.div_pos; lia). split; [apply Z.div_pos; lia|].
  apply Z.div_lt_upper_bound; [lia|]. apply Z.div_lt_upper_bound; [lia|]. nia.
Qed.
Lemma vbackward_R : forall c p, 0 <= p < 256 -> vbackward exs c p = backward exact c p.
Proof.
  intros c p H. unfold vbackward, backward. change (s_ar exs) with exact.
  apply bstep_ext; [lia|lia|reflexivity|now left| |exact H]. intros i Hi. apply bstep_ext; [lia|lia|reflexivity|right; now exists 2| |exact Hi]. clear i Hi. intros i Hi.
  apply bstep_ext; [lia|lia|reflexivity|right; now exists 8| |exact Hi]. clear i Hi. intros i Hi. now apply pre_R.
Qed.
Theorem vifft_exact : forall y out scr, length y = 256%nat -> length out = 64%nat -> length scr = 64%nat -> vifft256 exs y out scr = Ok (map (synthesis y) (seq 0 256)).
Proof.
  intros x out scr Lx Lo Ls. rewrite vifft256_run by (try assumption; exact scales_exact). rewrite <- (ifft_exact x (fresh 256) (fresh 256) Lx eq_refl eq_refl). rewrite ifft256_run by (assumption || reflexivity). f_equal.
  apply map_ext_in. intros p Hp. unfold zs in Hp. apply in_map_iff in Hp. destruct Hp as (n & <- & Hn). apply in_seq in Hn. apply vbackward_R. lia.
Qed.
