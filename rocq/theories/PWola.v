(* Proofs about the synthesis window, the overlap-add, the noise bands and the wrapped phases. *)
From Coq Require Import ZArith List Bool Lia Reals Lra.
From Verif Require Import Res F32 TabWola MParms MAdaptive MUnvoiced MSynth SpecAdaptive SpecWola PBase PRun PArr PSse PPower PFloat PFloat2.
From Flocq Require Import Core.Core.
Import ListNotations.
Local Open Scope Z_scope.

(* ---- window ---- *)
Lemma table_window : Ws_synthesis = map (fun i => window (Z.of_nat i - 105)) (seq 0 211).
Proof. vm_compute. reflexivity. Qed.
Lemma window_outside : forall n, (n <? -105) || (105 <? n) = true -> window n = fzero.
Proof.
  intros n H. assert (E : window_micro n = 0).
  { unfold window_micro. destruct (Z.ltb_spec n (-105)); [reflexivity|]. cbn in H. apply Z.ltb_lt in H.
    destruct (Z.ltb_spec n (-55)); [lia|]. destruct (Z.leb_spec n 54); [lia|]. destruct (Z.leb_spec n 89); [lia|].
    destruct (Z.leb_spec n 105); [lia|]. reflexivity. }
  unfold window. rewrite E. reflexivity.
Qed.
Lemma window_ok : forall n, mbe_synthesisWindow n = Ok (window n).
Proof.
  intros n. unfold mbe_synthesisWindow. destruct ((n <? -105) || (105 <? n)) eqn:E.
  - now rewrite window_outside.
  - apply orb_false_iff in E as [E1 E2]. apply Z.ltb_ge in E1. apply Z.ltb_ge in E2. rewrite table_window, rd_map_seq by lia.
    do 2 f_equal. lia.
Qed.
Lemma window_refuted : exists n, -105 <= n <= 105 /\ mbe_synthesisWindow n <> mbe_synthesisWindow (- n).
Proof. exists 55. split; [lia|]. vm_compute. discriminate. Qed.
Lemma plateau_refuted : exists n, -55 <= n <= 55 /\ mbe_synthesisWindow n <> Ok (f_of_Z 1).
Proof. exists 55. split; [lia|]. vm_compute. discriminate. Qed.
Lemma table_sym : forallb (fun n => match SFcompare (window (n - 105)) (window (105 - n)) with Some Eq => true | _ => (55 <=? Z.abs (n - 105)) && (Z.abs (n - 105) <=? 89) end) (zrange 211) = true.
Proof. vm_compute. reflexivity. Qed.

(* ---- overlap-add ---- *)
Lemma normaliser_all : forallb (fun n => fgt (normaliser n) f_1em10) (zrange 160) = true.
Proof. vm_compute. reflexivity. Qed.
Lemma normaliser_pos : forall n, 0 <= n < 160 -> fgt (normaliser n) f_1em10 = true.
Proof. intros n H. exact (zrange_forallb 160 _ normaliser_all n H). Qed.
Lemma denom_ok : forall n, wola_denom n = Ok (normaliser n).
Proof. intros n. unfold wola_denom, wola_w_prev, wola_w_curr. rewrite !window_ok. reflexivity. Qed.
Lemma denom_pos : forall n, 0 <= n < 160 -> exists d, wola_denom n = Ok d /\ d = normaliser n /\ fgt d f_1em10 = true.
Proof. intros n H. exists (normaliser n). split; [apply denom_ok|]. split; [reflexivity|]. now apply normaliser_pos. Qed.
Lemma sample_ok : forall u i, length u = 256%nat ->
  (if (0 <=? i) && (i <? 256) then rd u i else Ok fzero) = Ok (sample_at u i).
Proof.
  intros u i L. unfold sample_at. destruct ((0 <=? i) && (i <? 256)) eqn:E; [|reflexivity].
  apply andb_true_iff in E as [E1 E2]. apply Z.leb_le in E1. apply Z.ltb_lt in E2. apply rd_nth. lia.
Qed.
Lemma sample_in : forall u i, length u = 256%nat -> 0 <= i < 256 -> rd u i = Ok (sample_at u i).
Proof.
  intros u i L H. rewrite <- (sample_ok u i L). destruct (Z.leb_spec 0 i); [|lia]. destruct (Z.ltb_spec i 256); [|lia]. reflexivity.
Qed.
Lemma sample_out : forall u i, ~ 0 <= i < 256 -> sample_at u i = fzero.
Proof.
  intros u i H. unfold sample_at. destruct (Z.leb_spec 0 i), (Z.ltb_spec i 256); try reflexivity. lia.
Qed.
Lemma overlap_result : forall out prev curr l', length out = 160%nat -> length l' = length out ->
  (forall i x, 0 <= i < 160 -> rd out i = Ok x -> rd l' i = Ok (fadd x (overlap_term prev curr i))) ->
  l' = overlap_add out prev curr.
Proof.
  intros out prev curr l' L L' H. apply list_eq_rd.
  - unfold overlap_add. rewrite map_length, seq_length. congruence.
  - intros i Hi. rewrite L', L in Hi. unfold overlap_add. rewrite rd_map_seq by exact Hi.
    rewrite (H i (nth (Z.to_nat i) out fzero)); [now rewrite Z2Nat.id by lia|exact Hi|apply rd_nth; lia].
Qed.
Lemma combine_ref : forall out prev curr, length out = 160%nat -> length prev = 256%nat -> length curr = 256%nat ->
  mbe_wola_combine out prev curr 160 = Ok (overlap_add out prev curr).
Proof.
  intros out prev curr Lo Lp Lc. unfold mbe_wola_combine.
  match goal with |- for_up _ _ ?b _ = _ =>
    destruct (update_loop (fun n x => fadd x (overlap_term prev curr n)) b 0 160 out) as (l' & E & L & P & _) end; [lia..| |].
  - intros k s x Hk Ls Hs _. cbv beta. rewrite !window_ok. cbn [bind].
    assert (P : (if k + 128 <? 256 then rd prev (k + 128) else Ok fzero) = Ok (sample_at prev (k + 128))).
    { rewrite <- (sample_ok prev (k + 128) Lp). destruct (Z.leb_spec 0 (k + 128)); [|lia]. reflexivity. }
    rewrite P. cbn [bind]. rewrite (sample_ok curr) by exact Lc. cbn [bind]. cbv zeta. change (fadd (fmul (window k) (window k)) _) with (normaliser k).
    rewrite normaliser_pos by exact Hk. rewrite Hs. cbn [bind]. unfold overlap_term, wola_term. replace (k + 128 - 160) with (k - 32) by lia. reflexivity.
  - rewrite E. f_equal. apply overlap_result; assumption.
Qed.
Lemma combine_fast : forall out prev curr, length out = 160%nat -> length prev = 256%nat -> length curr = 256%nat ->
  mbe_wola_combine_fast out prev curr = Ok (overlap_add out prev curr).
Proof.
  intros out prev curr Lo Lp Lc. unfold mbe_wola_combine_fast.
  match goal with |- for_up _ _ ?b _ = _ =>
    destruct (update_loop (fun n x => fadd x (overlap_term prev curr n)) b 0 160 out) as (l' & E & L & P & _) end; [lia..| |].
  - intros k s x Hk Ls Hs _. cbv beta. rewrite denom_ok. unfold wola_w_prev, wola_w_curr. rewrite !window_ok. cbn [bind]. cbv zeta.
    rewrite !sample_ok by assumption. cbn [bind]. rewrite normaliser_pos by exact Hk. rewrite Hs. cbn [bind].
    unfold overlap_term, wola_term. replace (k + 128 - 160) with (k - 32) by lia. reflexivity.
  - rewrite E. f_equal. apply overlap_result; assumption.
Qed.
Lemma lane_ok : forall out prev curr k x, length prev = 256%nat -> length curr = 256%nat -> 32 <= k < 128 ->
  rd out k = Ok x -> wola_lane out prev curr k = Ok (fadd x (overlap_term prev curr k)).
Proof.
  intros out prev curr k x Lp Lc Hk Hx. unfold wola_lane. rewrite !sample_in by (assumption || lia). cbn [bind]. rewrite denom_ok.
  unfold wola_w_prev, wola_w_curr. rewrite !window_ok. cbn [bind]. rewrite Hx. cbn [bind]. rewrite normaliser_pos by lia. reflexivity.
Qed.
Lemma vec_ok : forall prev curr k out, length prev = 256%nat -> length curr = 256%nat -> 32 <= k -> k + 4 <= 128 -> length out = 160%nat ->
  exists out', wola_vec4 prev curr k out = Ok out' /\ length out' = 160%nat /\
  (forall i x, k <= i < k + 4 -> rd out i = Ok x -> rd out' i = Ok (fadd x (overlap_term prev curr i))) /\
  (forall i, 0 <= i -> ~ k <= i < k + 4 -> rd out' i = rd out i).
Proof.
  intros prev curr k out Lp Lc H1 H2 Lo. unfold wola_vec4.
  destruct (rd_ok out k) as [x0 X0]; [lia|]. destruct (rd_ok out (k + 1)) as [x1 X1]; [lia|].
  destruct (rd_ok out (k + 2)) as [x2 X2]; [lia|]. destruct (rd_ok out (k + 3)) as [x3 X3]; [lia|].
  rewrite (lane_ok out prev curr k x0), (lane_ok out prev curr (k + 1) x1), (lane_ok out prev curr (k + 2) x2),
    (lane_ok out prev curr (k + 3) x3) by (assumption || lia). cbn [bind].
  rewrite wr_ok by lia. cbn [bind]. rewrite wr_ok by (rewrite set_nth_length; lia). cbn [bind].
  rewrite wr_ok by (rewrite !set_nth_length; lia). cbn [bind]. rewrite wr_ok by (rewrite !set_nth_length; lia).
  eexists. split; [reflexivity|]. split; [now rewrite !set_nth_length|]. split.
  - intros i x Hi Hx. assert (C : i = k \/ i = k + 1 \/ i = k + 2 \/ i = k + 3) by lia.
    destruct C as [->|[->|[->| ->]]]; repeat rewrite rd_set_other by lia; rewrite rd_set_same by (rewrite ?set_nth_length; lia); congruence.
  - intros i Hi N. now repeat rewrite rd_set_other by lia.
Qed.
Lemma combine_sse2 : forall out prev curr, length out = 160%nat -> length prev = 256%nat -> length curr = 256%nat ->
  mbe_wola_combine_vec out prev curr = Ok (overlap_add out prev curr).
Proof.
  intros out prev curr Lo Lp Lc. unfold mbe_wola_combine_vec.
  destruct (update_loop (fun n x => fadd x (overlap_term prev curr n)) (wola_scalar_head prev) 0 32 out)
    as (l1 & E1 & L1 & P1 & Q1); [lia..| |].
  { intros k s x Hk Ls Hs _. unfold wola_scalar_head. rewrite sample_in by (assumption || lia). cbn [bind]. rewrite denom_ok.
    unfold wola_w_prev, wola_w_curr. rewrite !window_ok. cbn [bind]. rewrite normaliser_pos by lia. rewrite Hs. cbn [bind].
    unfold overlap_term, wola_term. rewrite (sample_out curr (k - 32)) by lia. reflexivity. }
  rewrite E1. cbn [bind].
  destruct (loop_ok (fun k s => 32 <= k /\ length s = 160%nat /\ (forall i x, 32 <= i < k -> rd l1 i = Ok x -> rd s i = Ok (fadd x (overlap_term prev curr i))) /\
      (forall i, 0 <= i -> ~ 32 <= i < k -> rd s i = rd l1 i)) (wola_vec4 prev curr) 4 24 32 l1) as (l2 & E2 & _ & L2 & P2 & Q2).
  { intros k s Hk (H0 & Ls & P & Q). replace (32 + (k + 1) * 4) with (32 + k * 4 + 4) by lia. set (i0 := 32 + k * 4) in *.
    destruct (vec_ok prev curr i0 s Lp Lc) as (s' & Es & L' & P' & Q'); [lia..|]. exists s'. split; [exact Es|]. split; [lia|]. split; [exact L'|]. split.
    - intros i x Hi Hx. destruct (Z_lt_ge_dec i i0) as [B|B].
      + rewrite Q' by lia. apply P; [lia|exact Hx].
      + apply P'; [lia|]. rewrite Q by lia. exact Hx.
    - intros i Hi N. rewrite Q' by lia. apply Q; lia. }
  { split; [lia|]. split; [lia|]. split; [intros; lia|reflexivity]. }
  rewrite E2. cbn [bind]. change (32 + Z.of_nat 24 * 4) with 128 in *.
  destruct (update_loop (fun n x => fadd x (overlap_term prev curr n)) (wola_scalar_tail curr) 128 160 l2)
    as (l3 & E3 & L3 & P3 & Q3); [lia..| |].
  { intros k s x Hk Ls Hs _. unfold wola_scalar_tail. rewrite sample_in by (assumption || lia). cbn [bind]. rewrite denom_ok.
    unfold wola_w_prev, wola_w_curr. rewrite !window_ok. cbn [bind]. rewrite normaliser_pos by lia. rewrite Hs. cbn [bind].
    unfold overlap_term, wola_term. rewrite (sample_out prev (k + 128)) by lia. reflexivity. }
  rewrite E3. f_equal. apply overlap_result; [exact Lo|congruence|]. intros i x Hi Hx.
  destruct (Z_lt_ge_dec i 32) as [B|B].
  - rewrite Q3, Q2 by lia. apply P1; [lia|exact Hx].
  - destruct (Z_lt_ge_dec i 128) as [C|C].
    + rewrite Q3 by lia. apply P2; [lia|]. rewrite Q1 by lia. exact Hx.
    + apply P3; [lia|]. rewrite Q2, Q1 by lia. exact Hx.
Qed.

(* ---- bands ---- *)
Lemma ceil_Z_R : forall x, is_finite_sf x = true -> ceil_Z x = Zceil (R_of x).
Proof.
  intros [s|s| |s m e] F; try discriminate F.
  - change (R_of (S754_zero s)) with (IZR 0). now rewrite Zceil_IZR.
  - unfold ceil_Z. cbv zeta. replace (if s then Z.neg m else Z.pos m) with (cond_Zopp s (Z.pos m)) by (destruct s; reflexivity).
    destruct (Z.leb_spec 0 e) as [He|He].
    + rewrite R_pos_exp by exact He. now rewrite Zceil_IZR.
    + rewrite R_neg_exp by exact He. unfold Zceil. f_equal. unfold Rdiv. rewrite Ropp_mult_distr_l, <- opp_IZR. symmetry. apply Zfloor_div.
      pose proof (Z.pow_pos_nonneg 2 (- e)). lia.
Qed.
Definition ok_pitch (w0 : f32) : Prop := ff w0 /\ (0 <= R_of w0 <= 1000)%R.
Definition half_up (l : Z) : f32 := fadd (f_of_Z l) fhalf.
Lemma halves : map (fun l => fsub (f_of_Z (Z.of_nat l + 1)) fhalf) (seq 0 57) = map (fun l => half_up (Z.of_nat l)) (seq 0 57).
Proof. vm_compute. reflexivity. Qed.
Lemma half_down : forall l, 1 <= l <= 56 -> fsub (f_of_Z l) fhalf = half_up (l - 1).
Proof.
  intros l H. assert (E : rd (map (fun l => fsub (f_of_Z (Z.of_nat l + 1)) fhalf) (seq 0 57)) (l - 1) = rd (map (fun l => half_up (Z.of_nat l)) (seq 0 57)) (l - 1)) by now rewrite halves.
  rewrite !rd_map_seq in E by lia. injection E as E. rewrite Z2Nat.id in E by lia. now replace (l - 1 + 1) with l in E by lia.
Qed.
Lemma half_R : forall l, 0 <= l <= 56 -> ff (half_up l) /\ (0 <= R_of (half_up l) <= 57)%R /\ R_of (half_up l) = rndf (IZR l + / 2).
Proof.
  intros l H. destruct (of_Z_R l) as [F E]; [lia|]. assert (Hh : R_of fhalf = (/ 2)%R) by (R_val fhalf; lra).
  assert (B : (0 <= IZR l <= 56)%R) by (split; apply IZR_le; lia).
  destruct (fadd_b (f_of_Z l) fhalf fzero (f_of_Z 57)) as (A1 & A2 & A3); [exact F|split; reflexivity..| |].
  { rewrite E, Hh. change (R_of fzero) with 0%R. R_val (f_of_Z 57). lra. }
  split; [exact A1|]. revert A2 A3. fold (half_up l). change (R_of fzero) with 0%R. R_val (f_of_Z 57). rewrite E, Hh. intros; split; [lra|assumption].
Qed.
Lemma mult_R : forall w0, ok_pitch w0 -> ff (fmul f256_OVER_2PI w0) /\ (0 <= R_of (fmul f256_OVER_2PI w0) <= 50000)%R.
Proof.
  intros w0 [F B]. destruct (fmul_b f256_OVER_2PI w0 fzero (f_of_Z 50000)) as (A1 & A2 & _); [split; reflexivity|exact F|split; reflexivity..| |].
  - change (R_of fzero) with 0%R. R_val (f_of_Z 50000). R_val f256_OVER_2PI. nra.
  - split; [exact A1|]. revert A2. change (R_of fzero) with 0%R. R_val (f_of_Z 50000); intros; lra.
Qed.
Lemma prod_R : forall w0 l, ok_pitch w0 -> 0 <= l <= 56 ->
  ff (fmul (half_up l) (fmul f256_OVER_2PI w0)) /\ (0 <= R_of (fmul (half_up l) (fmul f256_OVER_2PI w0)) <= 2850000)%R /\
  R_of (fmul (half_up l) (fmul f256_OVER_2PI w0)) = rndf (R_of (half_up l) * R_of (fmul f256_OVER_2PI w0)).
Proof.
  intros w0 l W H. destruct (mult_R w0 W) as [F B]. destruct (half_R l H) as (G & C & _).
  destruct (fmul_b (half_up l) (fmul f256_OVER_2PI w0) fzero (f_of_Z 2850000)) as (A1 & A2 & A3); [assumption..|split; reflexivity|split; reflexivity| |].
  - change (R_of fzero) with 0%R. R_val (f_of_Z 2850000).
    clear - B C. generalize dependent (R_of (half_up l)). generalize dependent (R_of (fmul f256_OVER_2PI w0)). intros r [B1 B2] r' [C1 C2]. nra.
  - split; [exact A1|]. split; [|exact A3]. revert A2. change (R_of fzero) with 0%R. R_val (f_of_Z 2850000). intros; lra.
Qed.
Lemma band_edge_unfold : forall w0 l, band_edge w0 l = ceil_Z (fmul (half_up l) (fmul f256_OVER_2PI w0)).
Proof. reflexivity. Qed.
Lemma edge_R : forall w0 l, ok_pitch w0 -> 0 <= l <= 56 ->
  band_bin (half_up l) (fmul f256_OVER_2PI w0) = Ok (band_edge w0 l) /\ 0 <= band_edge w0 l <= 2850000.
Proof.
  intros w0 l W H. destruct (prod_R w0 l W H) as (F & B & _). rewrite band_edge_unfold. unfold band_bin.
  set (x := fmul (half_up l) (fmul f256_OVER_2PI w0)) in *. rewrite (ceil_Z_R x (proj2 F)).
  destruct (fceil_R x F) as [[_ G] E]; [apply Rabs_le; lra|].
  assert (K : 0 <= Zceil (R_of x) <= 2850000).
  { split; [|apply Zceil_glb; lra]. pose proof (Zceil_ub (R_of x)) as U. apply le_IZR. lra. }
  unfold sf_to_int. rewrite trunc_R by exact G. rewrite E, Ztrunc_IZR. split; [|exact K]. unfold in_int.
  destruct (Z.leb_spec (-2147483648) (Zceil (R_of x))); [|lia]. destruct (Z.leb_spec (Zceil (R_of x)) 2147483647); [|lia]. reflexivity.
Qed.
Lemma edge_mono : forall w0 l l', ok_pitch w0 -> 0 <= l -> l <= l' -> l' <= 56 -> band_edge w0 l <= band_edge w0 l'.
Proof.
  intros w0 l l' W H0 H1 H2. destruct (prod_R w0 l W) as ((_ & F) & _ & E); [lia|]. destruct (prod_R w0 l' W) as ((_ & F') & _ & E'); [lia|].
  rewrite !band_edge_unfold, !ceil_Z_R by assumption. apply Zceil_le. rewrite E, E'. apply (rnd_mono 24 128 Hp24).
  destruct (mult_R w0 W) as [_ B]. apply Rmult_le_compat_r; [apply B|]. destruct (half_R l) as (_ & _ & ->); [lia|].
  destruct (half_R l') as (_ & _ & ->); [lia|]. apply (rnd_mono 24 128 Hp24). apply IZR_le in H1. lra.
Qed.
Lemma edges_ok : forall L w0, 0 <= L <= 56 -> ok_pitch w0 -> exists lo hi, band_edges L w0 = Ok (lo, hi) /\ length lo = 57%nat /\ length hi = 57%nat /\
  forall l, 1 <= l <= L -> rd lo l = Ok (Some (band_edge w0 (l - 1))) /\ rd hi l = Ok (Some (Z.min 128 (band_edge w0 l))).
Proof.
  intros L w0 HL W. unfold band_edges.
  match goal with |- exists lo hi, for_up _ _ ?b ?s0 = _ /\ _ =>
    destruct (for_up_ok (fun k (s : list (option Z) * list (option Z)) => length (fst s) = 57%nat /\ length (snd s) = 57%nat /\
      forall l, 1 <= l < k -> rd (fst s) l = Ok (Some (band_edge w0 (l - 1))) /\ rd (snd s) l = Ok (Some (Z.min 128 (band_edge w0 l))))
      b 1 (L + 1) s0) as ([lo hi] & E & L1 & L2 & P) end.
  - lia.
  - intros k [a b] Hk (La & Lb & P). cbn [fst snd] in *. rewrite half_down by lia. fold (half_up k).
    destruct (edge_R w0 (k - 1) W) as [E1 B1]; [lia|]. destruct (edge_R w0 k W) as [E2 B2]; [lia|]. rewrite E1, E2. cbn [bind].
    rewrite wr_ok by lia. cbn [bind]. rewrite wr_ok by lia. cbn [bind].
    destruct (Z.ltb_spec (band_edge w0 (k - 1)) 0); [lia|]. cbn [bind].
    assert (K : exists hi, (if 128 <? band_edge w0 k then wr (set_nth (Z.to_nat k) (Some (band_edge w0 k)) b) k (Some 128) else Ok (set_nth (Z.to_nat k) (Some (band_edge w0 k)) b)) = Ok hi /\
       length hi = 57%nat /\ rd hi k = Ok (Some (Z.min 128 (band_edge w0 k))) /\ forall l, 0 <= l -> l <> k -> rd hi l = rd b l).
    { destruct (Z.ltb_spec 128 (band_edge w0 k)).
      - rewrite wr_ok by (rewrite set_nth_length; lia). eexists. split; [reflexivity|]. split; [now rewrite !set_nth_length|]. split.
        + rewrite rd_set_same by (rewrite set_nth_length; lia). now rewrite Z.min_l by lia.
        + intros l Hl N. now rewrite !rd_set_other by lia.
      - eexists. split; [reflexivity|]. split; [now rewrite !set_nth_length|]. split.
        + rewrite rd_set_same by lia. now rewrite Z.min_r by lia.
        + intros l Hl N. now rewrite !rd_set_other by lia. }
    destruct K as (hi & -> & Lh & Hh & Hn). cbn [bind]. eexists. split; [reflexivity|]. cbn [fst snd]. split; [now rewrite set_nth_length|]. split; [exact Lh|].
    intros l Hl. destruct (Z.eq_dec l k) as [->|N].
    + rewrite rd_set_same by lia. auto.
    + rewrite rd_set_other, Hn by lia. apply P. lia.
  - cbn [fst snd]. split; [reflexivity|]. split; [reflexivity|]. intros; lia.
  - exists lo, hi. cbn [fst snd] in *. split; [exact E|]. split; [exact L1|]. split; [exact L2|]. intros l Hl. apply P. lia.
Qed.
(* the bins between the first and the last edge each lie in exactly one band *)
Lemma tile : forall L w0 lo hi, 0 <= L <= 56 -> ok_pitch w0 -> 
  (forall l, 1 <= l <= L -> rd lo l = Ok (Some (band_edge w0 (l - 1))) /\ rd hi l = Ok (Some (Z.min 128 (band_edge w0 l)))) ->
  forall bin, (exists l, 1 <= l <= L /\ in_band lo hi l bin) <-> band_edge w0 0 <= bin < Z.min 128 (band_edge w0 L).
Proof.
  intros L w0 lo hi HL W P bin. split.
  - intros (l & Hl & a & b & Ha & Hb & Hin). destruct (P l Hl) as [P1 P2]. apply rd_inv in P1 as [_ P1]. apply rd_inv in P2 as [_ P2].
    rewrite Ha in P1. rewrite Hb in P2. injection P1 as ->. injection P2 as ->.
    pose proof (edge_mono w0 0 (l - 1) W). pose proof (edge_mono w0 l L W). lia.
  - intros H. assert (K : forall n, 0 <= n -> n <= L -> bin < band_edge w0 n -> exists l, 1 <= l <= n /\ band_edge w0 (l - 1) <= bin < band_edge w0 l).
    { intros n Hn. pattern n. apply natlike_ind; [intros; lia| |exact Hn]. intros x Hx IH HxL Hb.
      destruct (Z_lt_ge_dec bin (band_edge w0 x)) as [B|B].
      - destruct IH as (l & Hl & Hle); [lia|exact B|]. exists l. split; [lia|exact Hle].
      - exists (Z.succ x). split; [lia|]. replace (Z.succ x - 1) with x by lia. lia. }
    destruct (K L) as (l & Hl & Hle); [lia..|]. exists l. split; [exact Hl|]. destruct (P l Hl) as [P1 P2].
    apply rd_inv in P1 as [_ P1]. apply rd_inv in P2 as [_ P2]. exists (band_edge w0 (l - 1)), (Z.min 128 (band_edge w0 l)).
    split; [exact P1|]. split; [exact P2|]. lia.
Qed.
Lemma tile_unique : forall L w0 lo hi, 0 <= L <= 56 -> ok_pitch w0 ->
  (forall l, 1 <= l <= L -> rd lo l = Ok (Some (band_edge w0 (l - 1))) /\ rd hi l = Ok (Some (Z.min 128 (band_edge w0 l)))) ->
  forall bin l l', 1 <= l <= L -> 1 <= l' <= L -> in_band lo hi l bin -> in_band lo hi l' bin -> l = l'.
Proof.
  intros L w0 lo hi HL W P.
  assert (K : forall bin l l', 1 <= l <= L -> 1 <= l' <= L -> l < l' -> in_band lo hi l bin -> in_band lo hi l' bin -> False).
  { intros bin l l' Hl Hl' Hlt (a & b & Ha & Hb & Hin) (a' & b' & Ha' & Hb' & Hin').
    destruct (P l Hl) as [P1 P2]. destruct (P l' Hl') as [P1' P2']. apply rd_inv in P1 as [_ P1]. apply rd_inv in P2 as [_ P2].
    apply rd_inv in P1' as [_ P1']. apply rd_inv in P2' as [_ P2'].
    assert (b = Z.min 128 (band_edge w0 l)) by congruence. assert (a' = band_edge w0 (l' - 1)) by congruence.
    pose proof (edge_mono w0 l (l' - 1) W). lia. }
  intros bin l l' Hl Hl' H H'. destruct (Z.lt_trichotomy l l') as [B|[B|B]]; [exfalso; eauto|exact B|exfalso; eauto].
Qed.

(* ---- unvoiced synthesis is defined ---- *)
Lemma combine_either : forall (o : oracle) out p c, length p = 256%nat -> length c = 256%nat -> length out = 160%nat ->
  (if lanes4 (o_simd o) then mbe_wola_combine_vec else mbe_wola_combine_fast) out p c = Ok (overlap_add out p c).
Proof. intros o out p c H1 H2 H3. destruct (lanes4 (o_simd o)); [now apply combine_sse2|now apply combine_fast]. Qed.
Lemma sum_total : forall simd fft a b, length fft = 256%nat -> 0 <= a -> b <= 128 -> exists s, mbe_magnitude_squared_sum simd fft a b = Ok s.
Proof. intros simd fft a b L Ha Hb. rewrite power_value by assumption. eauto. Qed.
Lemma scalors_total : forall simd L V M fft lo hi w0, 0 <= L <= 56 -> ok_pitch w0 -> length V = 57%nat -> length M = 57%nat -> length fft = 256%nat ->
  (forall l, 1 <= l <= L -> rd lo l = Ok (Some (band_edge w0 (l - 1))) /\ rd hi l = Ok (Some (Z.min 128 (band_edge w0 l)))) ->
  exists s, bin_scalors simd L V M fft lo hi = Ok s /\ length s = 129%nat.
Proof.
  intros simd L V M fft lo hi w0 HL W LV LM LF P. unfold bin_scalors.
  match goal with |- exists s, for_up _ _ ?b ?s0 = _ /\ _ =>
    destruct (for_up_ok0 (fun s : list f32 => length s = 129%nat) b 1 (L + 1) s0) as (s & E & Ls) end.
  - intros k s Hk Ls. destruct (rd_ok V k) as [v Hv]; [lia|]. rewrite Hv. cbn [bind]. destruct (v =? 0); [|eauto].
    destruct (P k) as [P1 P2]; [lia|]. rewrite (rdi_some _ _ _ P1), (rdi_some _ _ _ P2). cbn [bind].
    destruct (edge_R w0 (k - 1) W) as [_ B1]; [lia|]. destruct (edge_R w0 k W) as [_ B2]; [lia|].
    set (a := band_edge w0 (k - 1)) in *. set (b := Z.min 128 (band_edge w0 k)) in *.
    rewrite to_int_ok by lia. cbn [bind]. destruct (sum_total simd fft a b LF) as [num En]; [lia..|]. rewrite En. cbn [bind].
    destruct ((0 <? b - a) && fgt num f_1em10) eqn:C; [|eauto]. destruct (rd_ok M k) as [m Hm]; [lia|]. rewrite Hm. cbn [bind]. cbv zeta.
    match goal with |- exists s2, for_up _ _ ?b ?s0 = _ /\ _ =>
      destruct (for_up_ok0 (fun s : list f32 => length s = 129%nat) b a (Z.min 128 (band_edge w0 k)) s0) as (s' & E' & Ls') end; [|exact Ls|eauto].
    intros i s1 Hi L1. rewrite wr_ok by lia. eexists. split; [reflexivity|]. now rewrite set_nth_length.
  - reflexivity.
  - eauto.
Qed.
Lemma fft_fwd_length : forall o x, length (fft_fwd o x) = 256%nat.
Proof. intros o x. unfold fft_fwd. now rewrite map_length, seq_length. Qed.
Lemma fft_bwd_length : forall o x, length (fft_bwd o x) = 256%nat.
Proof. intros o x. unfold fft_bwd. now rewrite map_length, seq_length. Qed.
Lemma bin_scale_total : forall f bin s, length f = 256%nat -> 0 <= bin <= 128 -> exists f', pffft_bin_scale f bin s = Ok f' /\ length f' = 256%nat.
Proof.
  intros f bin s L H. unfold pffft_bin_scale.
  destruct (Z.eqb_spec bin 0) as [A|A].
  { destruct (rd_ok f 0) as [x Hx]; [lia|]. rewrite Hx. cbn [bind]. rewrite wr_ok by lia. eexists. split; [reflexivity|]. now rewrite set_nth_length. }
  destruct (Z.eqb_spec bin 128) as [B|B].
  { destruct (rd_ok f 1) as [x Hx]; [lia|]. rewrite Hx. cbn [bind]. rewrite wr_ok by lia. eexists. split; [reflexivity|]. now rewrite set_nth_length. }
  destruct (rd_ok f (2 * bin)) as [x Hx]; [lia|]. rewrite Hx. cbn [bind]. rewrite wr_ok by lia. cbn [bind].
  rewrite rd_set_other by lia. destruct (rd_ok f (2 * bin + 1)) as [y Hy]; [lia|]. rewrite Hy. cbn [bind].
  rewrite wr_ok by (rewrite set_nth_length; lia). eexists. split; [reflexivity|]. now rewrite !set_nth_length.
Qed.
Lemma windowed_total : forall noise, length noise = 256%nat -> exists u, windowed_noise noise = Ok u /\ length u = 256%nat.
Proof.
  intros noise L. unfold windowed_noise.
  match goal with |- exists u, bind (for_up _ _ ?b _) _ = _ /\ _ =>
    destruct (for_up_ok (fun k (s : list (option f32)) => length s = 256%nat /\ forall i, 0 <= i < k -> exists x, rd s i = Ok (Some x)) b 0 256 (fresh 256)) as (s & E & Ls & P) end.
  - lia.
  - intros k s Hk [Ls P]. cbv zeta.
    assert (Kw : exists w, (if (-105 <=? k - 128) && (k - 128 <=? 105) then rd Ws_synthesis (k - 128 + 105) else Ok fzero) = Ok w).
    { destruct (Z.leb_spec (-105) (k - 128)), (Z.leb_spec (k - 128) 105); cbn [andb]; eauto. apply rd_ok. change (Z.of_nat (length Ws_synthesis)) with 211. lia. }
    destruct Kw as [w ->]. cbn [bind]. destruct (rd_ok noise k) as [x Hx]; [lia|]. rewrite Hx. cbn [bind]. rewrite wr_ok by lia.
    eexists. split; [reflexivity|]. split; [now rewrite set_nth_length|]. intros i Hi. destruct (Z.eq_dec i k) as [->|N].
    + rewrite rd_set_same by lia. eauto.
    + rewrite rd_set_other by lia. apply P. lia.
  - split; [reflexivity|]. intros; lia.
  - rewrite E. cbn [bind]. destruct (all_init_ok s) as (v & Ev & Lv & _); [intros i Hi; apply P; lia|]. exists v. split; [exact Ev|congruence].
Qed.
Lemma unvoiced_total : forall o out cur prev noise, wf_parms cur -> wf_parms prev -> 0 <= p_L cur <= 56 -> ok_pitch (p_w0 cur) ->
  length noise = 256%nat -> length out = 160%nat ->
  exists out' uw, mbe_synthesizeUnvoicedFFTWithNoise o out cur prev noise = Ok (out', uw) /\ length out' = 160%nat /\ length uw = 256%nat.
Proof.
  intros o out cur prev noise (C1 & C2 & _) Wp HL W Ln Lo. assert (Lpu : length (p_previousUw prev) = 256%nat) by apply Wp.
  unfold mbe_synthesizeUnvoicedFFTWithNoise. destruct (windowed_total noise Ln) as (Uw & E1 & L1). rewrite E1. cbn [bind].
  destruct (edges_ok (p_L cur) (p_w0 cur) HL W) as (lo & hi & E2 & L2 & L3 & P). cbv zeta. rewrite E2. cbn [bind].
  destruct (scalors_total (o_simd o) (p_L cur) (p_Vl cur) (p_Ml cur) (fft_fwd o Uw) lo hi (p_w0 cur)) as (sc & E3 & L4); try assumption; [apply fft_fwd_length|].
  rewrite E3. cbn [bind].
  match goal with |- exists out' uw, bind (for_up _ _ ?b ?s0) _ = _ /\ _ =>
    destruct (for_up_ok0 (fun s : list f32 => length s = 256%nat) b 0 129 s0) as (f & E4 & L5) end.
  { intros k f Hk Lf. destruct (rd_ok sc k) as [s Hs]; [lia|]. rewrite Hs. cbn [bind]. apply bin_scale_total; [exact Lf|lia]. }
  { apply fft_fwd_length. }
  rewrite E4. cbn [bind]. rewrite normalize_scalar by apply fft_bwd_length.
  match goal with |- exists out' uw, bind (for_up _ _ ?b ?s0) _ = _ /\ _ =>
    destruct (for_up_ok0 (fun s : list f32 => length s = 256%nat) b 0 256 s0) as (u & E5 & L6) end.
  { intros k u Hk Lu. destruct (rd_ok u k) as [s Hs]; [lia|]. rewrite Hs. cbn [bind]. rewrite wr_ok by lia. eexists. split; [reflexivity|]. now rewrite set_nth_length. }
  { apply fft_bwd_length. }
  rewrite E5. cbn [bind]. rewrite (combine_either o) by assumption. cbn [bind]. eexists _, _. split; [reflexivity|]. split; [|exact L6].
  unfold overlap_add. now rewrite map_length, seq_length.
Qed.
