(* Speech synthesis equals its formulas. *)
From Coq Require Import ZArith List Bool Lia.
From Verif Require Import Res F32 TabSynth TabWola MParms MAdaptive MUnvoiced MSynth SpecAdaptive SpecGen SpecWola SpecOut SpecAmp SpecSynth PBase PRun PArr PSse PFloat PFloat2 PAdapt PGen POut PPower PWola PSpeech.
Import ListNotations.
Local Open Scope Z_scope.

Lemma replaced_length : forall {A} (d : A) lo hi f old, length (replaced d lo hi f old) = 57%nat.
Proof. intros. unfold replaced. now rewrite map_length, seq_length. Qed.
Lemma replaced_rd : forall {A} (d : A) lo hi f old i, 0 <= i < 57 ->
  rd (replaced d lo hi f old) i = Ok (if (lo <=? i) && (i <=? hi) then f i else cell d old i).
Proof.
  intros A d lo hi f old i Hi. unfold replaced. rewrite rd_map_seq by exact Hi. rewrite Z2Nat.id by lia. reflexivity.
Qed.
Lemma cell_rd : forall {A} (d : A) l i, 0 <= i < Z.of_nat (length l) -> rd l i = Ok (cell d l i).
Proof. intros A d l i H. now apply rd_nth. Qed.
Lemma rd_cell : forall {A} (d : A) l i x, rd l i = Ok x -> cell d l i = x.
Proof. intros A d l i x H. pose proof (rd_inv _ _ _ H) as [Hi _]. rewrite (cell_rd d l i Hi) in H. congruence. Qed.
Lemma replaced_eq : forall {A} (d : A) lo hi f old new, length new = 57%nat -> length old = 57%nat ->
  (forall i, 0 <= i < 57 -> lo <= i <= hi -> rd new i = Ok (f i)) ->
  (forall i, 0 <= i < 57 -> ~ lo <= i <= hi -> rd new i = rd old i) -> new = replaced d lo hi f old.
Proof.
  intros A d lo hi f old new Ln Lo H1 H2. apply list_eq_rd; [now rewrite replaced_length|]. intros i Hi. rewrite Ln in Hi.
  rewrite replaced_rd by lia. destruct ((lo <=? i) && (i <=? hi)) eqn:C.
  - apply H1; lia.
  - rewrite H2 by lia. apply cell_rd. lia.
Qed.
Lemma replaced_id : forall {A} (d : A) lo hi f old, length old = 57%nat -> hi < lo -> replaced d lo hi f old = old.
Proof. intros A d lo hi f old L H. symmetry. apply replaced_eq; auto. intros; lia. Qed.

(* ---- smoothing ---- *)
Lemma smoothing_formula : forall o a cur prev t, wf_parms cur -> 0 <= p_L cur <= 56 -> 0 <= p_errorCountTotal cur <= 1000000 ->
  p_amplitudeThreshold prev <= 2000000000 ->
  mbe_applyAdaptiveSmoothing o a cur prev t =
  Ok (smoothing_result o (frame_energy t a cur) cur prev, if pending t a then clear_pending t else t).
Proof.
  intros o a cur prev t (LV & LM & W) HL HE HT.
  assert (ER : smoothing_rm0 a cur t = Ok (frame_energy t a cur, if pending t a then clear_pending t else t)).
  { unfold smoothing_rm0, frame_energy, pending. destruct (_ && _); [reflexivity|]. rewrite sum_bands_ok by lia. reflexivity. }
  assert (ET : smoothing_Tm (p_errorRate cur) (p_errorCountTotal cur) (p_amplitudeThreshold prev) =
    Ok (amplitude_limit (p_errorRate cur) (p_errorCountTotal cur) (p_amplitudeThreshold prev))).
  { unfold smoothing_Tm, amplitude_limit. change LOW with (flit 5 1000). cbv zeta. destruct (fle _ _ && _); [reflexivity|].
    unfold AMPLITUDE_PENALTY, AMPLITUDE_BASE, DEFAULT_AMPLITUDE_THRESHOLD. rewrite to_int_ok by lia. cbn [bind]. rewrite to_int_ok by lia. cbn [bind].
    rewrite to_int_ok; [reflexivity|]. destruct (Z.leb_spec (p_amplitudeThreshold prev) 0); lia. }
  destruct (smoothing_total o a cur prev t _ (conj LV (conj LM W)) HL ET) as (c' & t' & H). rewrite H.
  apply smoothing_inv in H as (rm0 & V & Am & T & M & HR & HV & HA & HT' & HM & ->).
  rewrite ER in HR. injection HR as <- <-. rewrite ET in HT'. injection HT' as <-.
  rewrite sum_bands_ok in HA by lia. injection HA as HA. f_equal. f_equal. unfold smoothed, smoothing_result.
  assert (EE : smoothing_energy (p_localEnergy prev) (frame_energy t a cur) = running_energy (p_localEnergy prev) (frame_energy t a cur)) by reflexivity.
  rewrite EE in *. cbv zeta. set (e := running_energy _ _) in *.
  assert (EV : smoothing_VM o (p_errorRate cur) (p_errorCountTotal cur) (p_errorCount4 cur) e =
               voicing_limit o (p_errorRate cur) (p_errorCountTotal cur) (p_errorCount4 cur) e).
  { unfold smoothing_VM, voicing_limit. cbv zeta. change LOW with (flit 5 1000). change ENTRY with (flit 125 10000). reflexivity. }
  rewrite EV in HV. set (v := voicing_limit _ _ _ _ _) in *. set (Tm := amplitude_limit _ _ _) in *.
  assert (EA : Am = float_sum (bands (p_Ml cur) (p_L cur))) by (symmetry; exact HA). rewrite EA in HM. set (sum := float_sum _) in *.
  assert (KV : V = replaced 0 1 (p_L cur) (fun l => if fgt (cell zero (p_Ml cur) l) v then 1 else cell 0 (p_Vl cur) l) (p_Vl cur)).
  { unfold voicing_loop in HV.
    assert (K : length V = length (p_Vl cur) /\ (forall i, 0 <= i < 57 -> 1 <= i < p_L cur + 1 -> rd V i = Ok (if fgt (cell zero (p_Ml cur) i) v then 1 else cell 0 (p_Vl cur) i)) /\
       (forall i, ~ 1 <= i < p_L cur + 1 -> rd V i = rd (p_Vl cur) i)).
    { refine (for_up_inv (fun k s => length s = length (p_Vl cur) /\
        (forall i, 0 <= i < 57 -> 1 <= i < k -> rd s i = Ok (if fgt (cell zero (p_Ml cur) i) v then 1 else cell 0 (p_Vl cur) i)) /\
        (forall i, ~ 1 <= i < k -> rd s i = rd (p_Vl cur) i)) _ 1 (p_L cur + 1) _ V _ _ _ HV); [lia| |].
      - intros k s s' Hk (Ls & Q1 & Q2) Hb. apply bind_inv in Hb as (x & Hx & Hb). pose proof (rd_cell zero _ _ _ Hx) as CX.
        destruct (fgt x v) eqn:G.
        + split; [rewrite (wr_length _ _ _ _ Hb); exact Ls|]. split.
          * intros i Hi Hik. destruct (Z.eq_dec k i) as [<-|N].
            -- rewrite (rd_wr_same _ _ _ _ Hb), CX, G. reflexivity.
            -- rewrite (rd_wr_other _ _ _ _ _ Hb) by lia. apply Q1; lia.
          * intros i N. rewrite (rd_wr_other _ _ _ _ _ Hb) by lia. apply Q2. lia.
        + injection Hb as <-. split; [exact Ls|]. split.
          * intros i Hi Hik. destruct (Z.eq_dec k i) as [<-|N].
            -- rewrite CX, G, Q2 by lia. apply cell_rd. lia.
            -- apply Q1; lia.
          * intros i N. apply Q2. lia.
      - split; [reflexivity|]. split; [intros; lia|auto]. }
    destruct K as (K1 & K2 & K3). apply replaced_eq; [congruence|exact LV| |].
    - intros i Hi Hi'. apply K2; lia.
    - intros i Hi Hi'. apply K3. lia. }
  assert (KM : M = if fgt sum (f_of_Z Tm) && fgt sum zero
             then replaced zero 1 (p_L cur) (fun l => fmul (cell zero (p_Ml cur) l) (fdiv (f_of_Z Tm) sum)) (p_Ml cur) else p_Ml cur).
  { destruct HM as [[C HM]|[C HM]]; change fzero with zero in C; rewrite C; [|exact HM].
    apply scale_spec in HM as (K1 & K2 & K3). apply replaced_eq; [congruence|exact LM| |].
    - intros i Hi Hi'. apply K3; [lia|]. apply cell_rd. lia.
    - intros i Hi Hi'. apply K2. lia. }
  rewrite KV, KM. reflexivity.
Qed.

(* ---- oscillator ---- *)
Lemma fade_table : Ws = map (fun i => fade (Z.of_nat i)) (seq 0 321).
Proof. vm_compute. reflexivity. Qed.
Lemma fade_rd : forall i, 0 <= i <= 320 -> rd Ws i = Ok (fade i).
Proof. intros i Hi. rewrite fade_table. rewrite rd_map_seq by lia. now rewrite Z2Nat.id by lia. Qed.

Definition osc_val (sm : build) (off : Z) (amp c s sd cd : f32) (n : Z) : f32 :=
  voiced_term sm (fade (n + off)) amp (fst (Nat.iter (Z.to_nat n) (rotate cd sd) (c, s))).
Definition osc_done (sm : build) (off : Z) (amp c s sd cd : f32) (a0 : list f32) (k : Z) (z : list f32 * f32 * f32) : Prop :=
  length (fst (fst z)) = 160%nat /\ (snd (fst z), snd z) = Nat.iter (Z.to_nat k) (rotate cd sd) (c, s) /\
  (forall i x, 0 <= i < k -> rd a0 i = Ok x -> rd (fst (fst z)) i = Ok (fadd x (osc_val sm off amp c s sd cd i))) /\
  (forall i, k <= i -> rd (fst (fst z)) i = rd a0 i).
Lemma osc_done_step : forall sm off amp c s sd cd a0 k a c1 s1, 0 <= off <= 160 -> 0 <= k < 160 -> osc_done sm off amp c s sd cd a0 k (a, c1, s1) -> length a0 = 160%nat ->
  exists z, (x <- rd a k ;; wk <- rd Ws (k + off) ;;
    aout <- wr a k (fadd x (voiced_term sm wk amp c1)) ;;
    let '(c', s') := osc_step c1 s1 sd cd in Ok (aout, c', s')) = Ok z /\ osc_done sm off amp c s sd cd a0 (k + 1) z.
Proof.
  intros sm off amp c s sd cd a0 k a c1 s1 Ho Hk (L & I & P & Q) L0. cbn [fst snd] in *.
  destruct (rd_ok a0 k) as [x Hx]; [lia|]. rewrite (Q k) by lia. rewrite Hx. cbn [bind]. rewrite fade_rd by lia. cbn [bind].
  rewrite wr_ok by lia. cbn [bind]. unfold osc_step. eexists. split; [reflexivity|]. unfold osc_done. cbn [fst snd].
  split; [now rewrite set_nth_length|]. split.
  { replace (Z.to_nat (k + 1)) with (S (Z.to_nat k)) by lia. change (Nat.iter (S (Z.to_nat k)) (rotate cd sd) (c, s)) with (rotate cd sd (Nat.iter (Z.to_nat k) (rotate cd sd) (c, s))). rewrite <- I. reflexivity. }
  split.
  - intros i y Hi Hy. destruct (Z.eq_dec k i) as [<-|N].
    + rewrite rd_set_same by lia. rewrite Hx in Hy. injection Hy as <-. unfold osc_val. rewrite <- I. cbn [fst]. reflexivity.
    + rewrite rd_set_other by lia. apply P; [lia|exact Hy].
  - intros i Hi. rewrite rd_set_other by lia. apply Q. lia.
Qed.
Lemma block4_val : forall sm off amp c s sd cd a0 n a c1 s1, 0 <= off <= 160 -> 0 <= n -> n + 4 <= 160 -> length a0 = 160%nat ->
  osc_done sm off amp c s sd cd a0 n (a, c1, s1) ->
  exists z, mbe_add_voiced_block4 sm a n (n + off) amp c1 s1 sd cd = Ok z /\ osc_done sm off amp c s sd cd a0 (n + 4) z.
Proof.
  intros sm off amp c s sd cd a0 n a c1 s1 Ho Hn Hn4 L0 D. unfold mbe_add_voiced_block4.
  match goal with |- exists r, for_up _ _ ?b ?s0 = _ /\ _ =>
    destruct (for_up_ok (fun k z => osc_done sm off amp c s sd cd a0 (n + k) z) b 0 4 s0) as (r & E & D') end; [lia| |now rewrite Z.add_0_r|eauto].
  intros k [[a1 c2] s2] Hk Dk. rewrite Z.add_assoc.
  replace (n + off + k) with (n + k + off) by lia. apply osc_done_step; auto. lia.
Qed.
Lemma osc_value : forall sm aout off amp c s sd cd, length aout = 160%nat -> off = 0 \/ off = 160 ->
  exists r, add_oscillator sm aout off amp c s sd cd = Ok r /\ length r = 160%nat /\
  forall i x, 0 <= i < 160 -> rd aout i = Ok x -> rd r i = Ok (fadd x (osc_val sm off amp c s sd cd i)).
Proof.
  intros sm aout off amp c s sd cd L Ho. unfold add_oscillator.
  destruct (loop_ok (fun n z => osc_done sm off amp c s sd cd aout n z) (fun n '(aout, c, s) => mbe_add_voiced_block4 sm aout n (n + off) amp c s sd cd) 4 40 0 (aout, c, s))
    as ([[r c1] s1] & E & D).
  - intros k [[a c1] s1] Hk D. replace (0 + (k + 1) * 4) with (0 + k * 4 + 4) by lia.
    apply block4_val; auto; lia.
  - unfold osc_done. cbn [fst snd]. split; [exact L|]. split; [reflexivity|]. split; [intros; lia|reflexivity].
  - rewrite E. cbn [bind]. destruct D as (Lr & _ & P & _). exists r. split; [reflexivity|]. split; [exact Lr|]. intros i x Hi. apply P. lia.
Qed.
Lemma glide_value : forall o aout l cw0 pw0 pc pp mc mp, length aout = 160%nat ->
  exists r, add_interpolated o aout l cw0 pw0 pc pp mc mp = Ok r /\ length r = 160%nat /\
  forall i x, 0 <= i < 160 -> rd aout i = Ok x -> rd r i = Ok (fadd x (glide o l cw0 pw0 pc pp mc mp i)).
Proof.
  intros o aout l cw0 pw0 pc pp mc mp L. unfold add_interpolated. cbv zeta.
  match goal with |- exists r, for_up _ _ ?b ?s0 = _ /\ _ =>
    destruct (update_loop (fun n x => fadd x (glide o l cw0 pw0 pc pp mc mp n)) b 0 160 s0) as (r & E & Lr & P & _) end; [lia|lia|lia| |].
  - intros k s x Hk Ls Hs Hx. cbv beta. rewrite Hs. cbn [bind]. reflexivity.
  - exists r. split; [exact E|]. split; [congruence|exact P].
Qed.
Definition harmonic (o : oracle) (cw0 pw0 : f32) (cur prev : parms) (l : Z) (n : nat) : list f32 :=
  let vc := cell 0 (p_Vl cur) l =? 1 in
  let vp := cell 0 (p_Vl prev) l =? 1 in
  let pc := cell zero (p_PHIl cur) l in
  let pp := cell zero (p_PHIl prev) l in
  let mc := cell zero (p_Ml cur) l in
  let mp := cell zero (p_Ml prev) l in
  let wc := fmul cw0 (f_of_Z l) in
  let wp := fmul pw0 (f_of_Z l) in
  if (l <? 8) && vc && vp && steady cw0 pw0 then [glide o l cw0 pw0 pc pp mc mp (Z.of_nat n)]
  else (if vp then [faded o (fade (Z.of_nat n + 160)) mp pp wp n] else []) ++
       (if vc then [faded o (fade (Z.of_nat n)) mc (fsub pc (fmul wc (f_of_Z 160))) wc n] else []).
Lemma harmonic_value : forall o cw0 pw0 cur prev l aout, wf_parms cur -> wf_parms prev -> 0 <= l <= 56 -> length aout = 160%nat ->
  exists r, add_harmonic o cw0 pw0 cur prev l aout = Ok r /\ length r = 160%nat /\
  forall i x, 0 <= i < 160 -> rd aout i = Ok x -> rd r i = Ok (fold_left fadd (harmonic o cw0 pw0 cur prev l (Z.to_nat i)) x).
Proof.
  intros o cw0 pw0 cur prev l aout (C1 & C2 & C3 & C4 & C5 & _) (P1 & P2 & P3 & P4 & P5 & _) Hl La. unfold add_harmonic, harmonic. cbv zeta.
  rewrite (cell_rd 0 (p_Vl cur) l), (cell_rd 0 (p_Vl prev) l), (cell_rd zero (p_PHIl cur) l), (cell_rd zero (p_PHIl prev) l),
    (cell_rd zero (p_Ml cur) l), (cell_rd zero (p_Ml prev) l) by lia. cbn [bind].
  set (vc := cell 0 (p_Vl cur) l =? 1). set (vp := cell 0 (p_Vl prev) l =? 1).
  change (flt (fabs (fsub cw0 pw0)) (fmul f_0p1 cw0)) with (steady cw0 pw0).
  assert (I : forall i, 0 <= i -> Z.of_nat (Z.to_nat i) = i) by (intros; lia).
  destruct (vc || vp) eqn:V.
  2:{ apply orb_false_iff in V as [-> ->]. rewrite !andb_false_r. cbn [andb app]. exists aout. split; [reflexivity|]. split; [exact La|]. intros i x Hi Hx. exact Hx. }
  destruct ((l <? 8) && vc && vp && steady cw0 pw0).
  - destruct (glide_value o aout l cw0 pw0 (cell zero (p_PHIl cur) l) (cell zero (p_PHIl prev) l) (cell zero (p_Ml cur) l) (cell zero (p_Ml prev) l) La) as (r & E & Lr & P).
    exists r. split; [exact E|]. split; [exact Lr|]. intros i x Hi Hx. cbn [fold_left]. rewrite I by lia. now apply P.
  - set (wp := fmul pw0 (f_of_Z l)). set (wc := fmul cw0 (f_of_Z l)).
    assert (K : exists b, (if vp then add_oscillator (o_simd o) aout 160 (cell zero (p_Ml prev) l) (cosf o (cell zero (p_PHIl prev) l)) (sinf o (cell zero (p_PHIl prev) l)) (sinf o wp) (cosf o wp)
                           else Ok aout) = Ok b /\ length b = 160%nat /\
       forall i x, 0 <= i < 160 -> rd aout i = Ok x -> rd b i = Ok (fold_left fadd (if vp then [faded o (fade (Z.of_nat (Z.to_nat i) + 160)) (cell zero (p_Ml prev) l) (cell zero (p_PHIl prev) l) wp (Z.to_nat i)] else []) x)).
    { destruct vp; [|exists aout; auto].
      destruct (osc_value (o_simd o) aout 160 (cell zero (p_Ml prev) l) (cosf o (cell zero (p_PHIl prev) l)) (sinf o (cell zero (p_PHIl prev) l)) (sinf o wp) (cosf o wp) La) as (b & E & Lb & P); [auto|].
      exists b. split; [exact E|]. split; [exact Lb|]. intros i x Hi Hx. rewrite (P i x Hi Hx). rewrite I by lia. reflexivity. }
    destruct K as (b & E & Lb & P). rewrite E. cbn [bind]. destruct vc.
    + destruct (osc_value (o_simd o) b 0 (cell zero (p_Ml cur) l) (cosf o (fsub (cell zero (p_PHIl cur) l) (fmul wc (f_of_Z 160)))) (sinf o (fsub (cell zero (p_PHIl cur) l) (fmul wc (f_of_Z 160)))) (sinf o wc) (cosf o wc) Lb)
        as (d & E' & Ld & P'); [auto|].
      exists d. split; [exact E'|]. split; [exact Ld|]. intros i x Hi Hx. rewrite fold_left_app. rewrite (P' i _ Hi (P i x Hi Hx)). cbn [fold_left].
      unfold osc_val. rewrite Z.add_0_r, I by lia. reflexivity.
    + exists b. split; [reflexivity|]. split; [exact Lb|]. intros i x Hi Hx. rewrite app_nil_r. now apply P.
Qed.
Lemma upto_snoc : forall n, 0 <= n -> upto (n + 1) = upto n ++ [n + 1].
Proof.
  intros n Hn. unfold upto. replace (Z.to_nat (n + 1)) with (Z.to_nat n + 1)%nat by lia. rewrite seq_app, map_app. cbn. f_equal. f_equal. lia.
Qed.
Lemma harmonics_value : forall o cw0 pw0 cur prev maxl aout, wf_parms cur -> wf_parms prev -> 0 <= maxl <= 56 -> length aout = 160%nat ->
  exists r, for_up 1 (maxl + 1) (add_harmonic o cw0 pw0 cur prev) aout = Ok r /\ length r = 160%nat /\
  forall i x, 0 <= i < 160 -> rd aout i = Ok x ->
    rd r i = Ok (fold_left fadd (flat_map (fun l => harmonic o cw0 pw0 cur prev l (Z.to_nat i)) (upto maxl)) x).
Proof.
  intros o cw0 pw0 cur prev maxl aout WC WP Hm La.
  destruct (for_up_ok (fun k s => length s = 160%nat /\ forall i x, 0 <= i < 160 -> rd aout i = Ok x ->
    rd s i = Ok (fold_left fadd (flat_map (fun l => harmonic o cw0 pw0 cur prev l (Z.to_nat i)) (upto (k - 1))) x))
    (add_harmonic o cw0 pw0 cur prev) 1 (maxl + 1) aout) as (r & E & Lr & P).
  - lia.
  - intros k s Hk [Ls P]. destruct (harmonic_value o cw0 pw0 cur prev k s WC WP) as (r & E & Lr & Q); [lia|exact Ls|].
    exists r. split; [exact E|]. split; [exact Lr|]. intros i x Hi Hx. rewrite (Q i _ Hi (P i x Hi Hx)).
    replace (k + 1 - 1) with ((k - 1) + 1) by lia. rewrite upto_snoc by lia. rewrite flat_map_app, fold_left_app. cbn [flat_map].
    rewrite app_nil_r. replace (k - 1 + 1) with k by lia. reflexivity.
  - split; [exact La|]. intros i x Hi Hx. exact Hx.
  - exists r. split; [exact E|]. split; [exact Lr|]. replace (maxl + 1 - 1) with maxl in P by lia. exact P.
Qed.

(* ---- unvoiced part ---- *)
Lemma windowed_value : forall noise, length noise = 256%nat -> windowed_noise noise = Ok (windowed noise).
Proof.
  intros noise L. unfold windowed_noise.
  match goal with |- bind (for_up _ _ ?b _) _ = _ =>
    destruct (for_up_ok (fun k (s : list (option f32)) => length s = 256%nat /\ forall i, 0 <= i < k -> rd s i = Ok (Some (fmul (nth (Z.to_nat i) noise zero) (window (i - 128))))) b 0 256 (fresh 256)) as (s & E & Ls & P) end.
  - lia.
  - intros k s Hk [Ls P]. cbv zeta.
    assert (Kw : (if (-105 <=? k - 128) && (k - 128 <=? 105) then rd Ws_synthesis (k - 128 + 105) else Ok fzero) = Ok (window (k - 128))).
    { rewrite <- window_ok. unfold mbe_synthesisWindow. destruct (Z.leb_spec (-105) (k - 128)), (Z.leb_spec (k - 128) 105), (Z.ltb_spec (k - 128) (-105)), (Z.ltb_spec 105 (k - 128)); try lia; reflexivity. }
    rewrite Kw. cbn [bind]. rewrite (rd_nth noise k zero) by lia. cbn [bind]. rewrite wr_ok by lia.
    eexists. split; [reflexivity|]. split; [now rewrite set_nth_length|]. intros i Hi. destruct (Z.eq_dec i k) as [->|N].
    + rewrite rd_set_same by lia. reflexivity.
    + rewrite rd_set_other by lia. apply P. lia.
  - split; [reflexivity|]. intros; lia.
  - rewrite E. cbn [bind]. destruct (all_init_ok s) as (v & Ev & Lv & Q); [intros i Hi; rewrite P by lia; eauto|]. rewrite Ev. f_equal.
    apply list_eq_rd; [unfold windowed; rewrite map_length, seq_length; congruence|]. intros i Hi. rewrite Lv, Ls in Hi.
    unfold windowed. rewrite rd_map_seq by lia. rewrite Z2Nat.id by lia. apply Q. apply P. lia.
Qed.
Lemma seq_snoc : forall {A} (f : nat -> A) n, map f (seq 0 (S n)) = map f (seq 0 n) ++ [f n].
Proof. intros A f n. rewrite seq_S, map_app. reflexivity. Qed.
Lemma find_app : forall {A} (f : A -> bool) a b, find f (a ++ b) = match find f a with Some x => Some x | None => find f b end.
Proof. intros A f. induction a as [|x a IH]; intros b; [reflexivity|]. cbn [app find]. destruct (f x); [reflexivity|apply IH]. Qed.
Definition gain_upto (sm : build) (x : list f32) (cur : parms) (n bin : Z) : f32 :=
  match find (fun l => (band_low cur l <=? bin) && (bin <? band_high cur l)) (upto n) with Some l => band_gain sm x cur l | None => zero end.
Lemma in_upto : forall n l, In l (upto n) -> 1 <= l <= n.
Proof. intros n l H. unfold upto in H. apply in_map_iff in H as (k & <- & H). apply in_seq in H. lia. Qed.
Lemma gain_upto_step : forall sm x cur k bin, ok_pitch (p_w0 cur) -> 1 <= k <= 56 ->
  gain_upto sm x cur k bin = if (band_low cur k <=? bin) && (bin <? band_high cur k) then band_gain sm x cur k else gain_upto sm x cur (k - 1) bin.
Proof.
  intros sm x cur k bin W Hk. unfold gain_upto. replace k with ((k - 1) + 1) at 1 by lia. rewrite upto_snoc by lia. rewrite find_app.
  replace (k - 1 + 1) with k by lia. cbn [find].
  destruct (find _ (upto (k - 1))) as [l|] eqn:F; [|now destruct (_ && _)].
  pose proof (find_some _ _ F) as [Hl Hb]. apply in_upto in Hl.
  destruct ((band_low cur k <=? bin) && (bin <? band_high cur k)) eqn:C; [|reflexivity].
  exfalso. unfold band_low, band_high in *. pose proof (edge_mono (p_w0 cur) l (k - 1) W). lia.
Qed.
Lemma scalors_value : forall sm cur x lo hi, 0 <= p_L cur <= 56 -> ok_pitch (p_w0 cur) -> length (p_Vl cur) = 57%nat -> length (p_Ml cur) = 57%nat -> length x = 256%nat ->
  (forall l, 1 <= l <= p_L cur -> rd lo l = Ok (Some (band_low cur l)) /\ rd hi l = Ok (Some (band_high cur l))) ->
  exists s, bin_scalors sm (p_L cur) (p_Vl cur) (p_Ml cur) x lo hi = Ok s /\ length s = 129%nat /\ forall bin, 0 <= bin <= 128 -> rd s bin = Ok (bin_gain sm x cur bin).
Proof.
  intros sm cur x lo hi HL W LV LM LF P. unfold bin_scalors.
  match goal with |- exists s, for_up _ _ ?b ?s0 = _ /\ _ =>
    destruct (for_up_ok (fun k (s : list f32) => length s = 129%nat /\ forall bin, 0 <= bin <= 128 -> rd s bin = Ok (gain_upto sm x cur (k - 1) bin)) b 1 (p_L cur + 1) s0) as (s & E & Ls & Q) end.
  - lia.
  - intros k s Hk [Ls Q]. replace (k + 1 - 1) with k by lia. rewrite (cell_rd 0 (p_Vl cur) k) by lia. cbn [bind].
    destruct (edge_R (p_w0 cur) (k - 1) W) as [_ B1]; [lia|]. destruct (edge_R (p_w0 cur) k W) as [_ B2]; [lia|].
    assert (OLD : forall bin, band_low cur k <= bin < band_high cur k -> gain_upto sm x cur (k - 1) bin = zero).
    { intros bin Hb. unfold gain_upto. destruct (find _ (upto (k - 1))) as [l|] eqn:F; [|reflexivity].
      pose proof (find_some _ _ F) as [Hl Hc]. apply in_upto in Hl. unfold band_low, band_high in *. pose proof (edge_mono (p_w0 cur) l (k - 1) W). lia. }
    assert (SAME : band_high cur k <= band_low cur k \/ band_gain sm x cur k = zero -> forall bin, gain_upto sm x cur k bin = gain_upto sm x cur (k - 1) bin).
    { intros G bin. rewrite gain_upto_step by (auto || lia). destruct ((band_low cur k <=? bin) && (bin <? band_high cur k)) eqn:C; [|reflexivity].
      rewrite OLD by lia. destruct G as [G|G]; [lia|exact G]. }
    destruct (cell 0 (p_Vl cur) k =? 0) eqn:V.
    2:{ exists s. split; [reflexivity|]. split; [exact Ls|]. intros bin Hb. rewrite SAME; [apply Q, Hb|]. right. unfold band_gain. rewrite V. reflexivity. }
    destruct (P k) as [P1 P2]; [lia|]. rewrite (rdi_some _ _ _ P1), (rdi_some _ _ _ P2). cbn [bind].
    set (a := band_low cur k) in *. set (b := band_high cur k) in *.
    assert (Ba : 0 <= a <= 2000000000) by (unfold a, band_low; lia). assert (Bb : -1 <= b <= 128) by (unfold b, band_high; lia).
    rewrite to_int_ok by lia. cbn [bind]. rewrite power_value by lia. cbn [bind].
    destruct ((0 <? b - a) && fgt (band_power sm x a b) f_1em10) eqn:C.
    2:{ exists s. split; [reflexivity|]. split; [exact Ls|]. intros bin Hb. rewrite SAME; [apply Q, Hb|].
        destruct (Z.ltb_spec 0 (b - a)); [|left; lia]. right. cbn [andb] in C. unfold band_gain. fold a b. change (flit 1 10000000000) with f_1em10. rewrite C, andb_false_r. reflexivity. }
    apply andb_true_iff in C as [C1 C2].
    rewrite (cell_rd zero (p_Ml cur) k) by lia. cbn [bind]. cbv zeta.
    assert (G : band_gain sm x cur k = fdiv (fmul UNVOICED_SCALE (cell zero (p_Ml cur) k)) (fsqrt (fdiv (band_power sm x a b) (f_of_Z (b - a))))).
    { unfold band_gain. fold a b. change (flit 1 10000000000) with f_1em10. rewrite V, C2. reflexivity. }
    rewrite <- G.
    match goal with |- exists s2, for_up _ _ ?bd ?s0 = _ /\ _ =>
      destruct (for_up_ok (fun n (s1 : list f32) => length s1 = 129%nat /\ forall bin, 0 <= bin <= 128 -> rd s1 bin = Ok (if (a <=? bin) && (bin <? n) then band_gain sm x cur k else gain_upto sm x cur (k - 1) bin)) bd a b s0) as (s' & E' & Ls' & Q') end.
    + lia.
    + intros i s1 Hi [L1 Q1]. rewrite wr_ok by lia. eexists. split; [reflexivity|]. split; [now rewrite set_nth_length|].
      intros bin Hb. destruct (Z.eq_dec i bin) as [<-|N].
      * rewrite rd_set_same by lia. replace ((a <=? i) && (i <? i + 1)) with true by lia. reflexivity.
      * rewrite rd_set_other by lia. rewrite Q1 by lia. replace (bin <? i + 1) with (bin <? i) by lia. reflexivity.
    + split; [exact Ls|]. intros bin Hb. replace ((a <=? bin) && (bin <? a)) with false by lia. now apply Q.
    + exists s'. split; [exact E'|]. split; [exact Ls'|]. intros bin Hb. rewrite gain_upto_step by (auto || lia). now apply Q'.
  - split; [reflexivity|]. intros bin Hb. rewrite (rd_nth (repeat fzero 129) bin fzero) by (rewrite repeat_length; lia). rewrite nth_repeat. reflexivity.
  - exists s. split; [exact E|]. split; [exact Ls|]. intros bin Hb. rewrite Q by lia. replace (p_L cur + 1 - 1) with (p_L cur) by lia. reflexivity.
Qed.
Lemma bin_scale_value : forall f bin s, length f = 256%nat -> 0 <= bin <= 128 -> exists f', pffft_bin_scale f bin s = Ok f' /\ length f' = 256%nat /\
  forall i x, 0 <= i < 256 -> rd f i = Ok x -> rd f' i = Ok (if bin_at i =? bin then fmul x s else x).
Proof.
  intros f bin s L H. unfold pffft_bin_scale.
  assert (BA : forall i, 0 <= i < 256 -> (bin_at i = 0 <-> i = 0) /\ (bin_at i = 128 <-> i = 1) /\ (1 <= bin < 128 -> (bin_at i = bin <-> i = 2 * bin \/ i = 2 * bin + 1))).
  { intros i Hi. unfold bin_at. destruct (Z.eqb_spec i 0); [subst; lia|]. destruct (Z.eqb_spec i 1); [subst; lia|].
    pose proof (Z.div_mod i 2). pose proof (Z.mod_pos_bound i 2). lia. }
  destruct (Z.eqb_spec bin 0) as [A|A].
  { rewrite (cell_rd zero f 0) by lia. cbn [bind]. rewrite wr_ok by lia. eexists. split; [reflexivity|]. split; [now rewrite set_nth_length|].
    intros i x Hi Hx. destruct (BA i Hi) as (B1 & _). destruct (Z.eqb_spec (bin_at i) bin) as [C|C].
    - assert (i = 0) by lia. subst i. rewrite rd_set_same by lia. now rewrite (rd_cell zero _ _ _ Hx).
    - rewrite rd_set_other by lia. exact Hx. }
  destruct (Z.eqb_spec bin 128) as [B|B].
  { rewrite (cell_rd zero f 1) by lia. cbn [bind]. rewrite wr_ok by lia. eexists. split; [reflexivity|]. split; [now rewrite set_nth_length|].
    intros i x Hi Hx. destruct (BA i Hi) as (_ & B1 & _). destruct (Z.eqb_spec (bin_at i) bin) as [C|C].
    - assert (i = 1) by lia. subst i. rewrite rd_set_same by lia. now rewrite (rd_cell zero _ _ _ Hx).
    - rewrite rd_set_other by lia. exact Hx. }
  rewrite (cell_rd zero f (2 * bin)) by lia. cbn [bind]. rewrite wr_ok by lia. cbn [bind].
  rewrite rd_set_other by lia. rewrite (cell_rd zero f (2 * bin + 1)) by lia. cbn [bind].
  rewrite wr_ok by (rewrite set_nth_length; lia). eexists. split; [reflexivity|]. split; [now rewrite !set_nth_length|].
  intros i x Hi Hx. destruct (BA i Hi) as (_ & _ & B1). destruct (Z.eqb_spec (bin_at i) bin) as [C|C].
  - apply B1 in C; [|lia]. destruct C as [-> | ->].
    + rewrite rd_set_other by lia. rewrite rd_set_same by lia. now rewrite (rd_cell zero _ _ _ Hx).
    + rewrite rd_set_same by (rewrite set_nth_length; lia). now rewrite (rd_cell zero _ _ _ Hx).
  - rewrite !rd_set_other by lia. exact Hx.
Qed.
Lemma bin_at_range : forall i, 0 <= i < 256 -> 0 <= bin_at i <= 128.
Proof. intros i Hi. unfold bin_at. destruct (Z.eqb_spec i 0); [lia|]. destruct (Z.eqb_spec i 1); [lia|]. pose proof (Z.div_mod i 2). pose proof (Z.mod_pos_bound i 2). lia. Qed.
Lemma unvoiced_value : forall o out cur prev noise, wf_parms cur -> wf_parms prev -> 0 <= p_L cur <= 56 -> ok_pitch (p_w0 cur) ->
  length noise = 256%nat -> length out = 160%nat ->
  mbe_synthesizeUnvoicedFFTWithNoise o out cur prev noise = Ok (overlap_add out (p_previousUw prev) (noise_wave o cur noise), noise_wave o cur noise).
Proof.
  intros o out cur prev noise (C1 & C2 & _) Wp HL W Ln Lo. assert (Lpu : length (p_previousUw prev) = 256%nat) by apply Wp.
  unfold mbe_synthesizeUnvoicedFFTWithNoise. rewrite windowed_value by exact Ln. cbn [bind].
  destruct (edges_ok (p_L cur) (p_w0 cur) HL W) as (lo & hi & E2 & L2 & L3 & P). cbv zeta. rewrite E2. cbn [bind].
  set (x := fft_fwd o (windowed noise)). assert (Lx : length x = 256%nat) by apply fft_fwd_length.
  destruct (scalors_value (o_simd o) cur x lo hi HL W C1 C2 Lx P) as (sc & E3 & L4 & Q3).
  rewrite E3. cbn [bind].
  match goal with |- bind (for_up _ _ ?b ?s0) _ = _ =>
    destruct (for_up_ok (fun k (s : list f32) => length s = 256%nat /\ forall i y, 0 <= i < 256 -> rd x i = Ok y -> rd s i = Ok (if bin_at i <? k then fmul y (bin_gain (o_simd o) x cur (bin_at i)) else y)) b 0 129 s0) as (f & E4 & L5 & Q4) end.
  { lia. }
  { intros k f Hk [Lf Q]. rewrite Q3 by lia. cbn [bind]. destruct (bin_scale_value f k (bin_gain (o_simd o) x cur k) Lf) as (f' & Ef & Lf' & Qf); [lia|].
    exists f'. split; [exact Ef|]. split; [exact Lf'|]. intros i y Hi Hy. rewrite (Qf i _ Hi (Q i y Hi Hy)).
    destruct (Z.eqb_spec (bin_at i) k) as [C|C].
    - destruct (Z.ltb_spec (bin_at i) k); [lia|]. destruct (Z.ltb_spec (bin_at i) (k + 1)); [|lia]. now rewrite C.
    - destruct (Z.ltb_spec (bin_at i) k), (Z.ltb_spec (bin_at i) (k + 1)); try lia; reflexivity. }
  { split; [exact Lx|]. intros i y Hi Hy. pose proof (bin_at_range i Hi). destruct (Z.ltb_spec (bin_at i) 0); [lia|exact Hy]. }
  rewrite E4. cbn [bind].
  assert (EF : f = shaped (o_simd o) x cur).
  { apply list_eq_rd; [unfold shaped; now rewrite map_length, seq_length|]. intros i Hi. rewrite L5 in Hi. unfold shaped. rewrite rd_map_seq by lia. rewrite Z2Nat.id by lia.
    rewrite (Q4 i (nth (Z.to_nat i) x zero)); [|lia|apply rd_nth; lia]. pose proof (bin_at_range i Hi). destruct (Z.ltb_spec (bin_at i) 129); [reflexivity|lia]. }
  subst f. rewrite normalize_scalar by apply fft_bwd_length.
  match goal with |- bind (for_up _ _ ?b ?s0) _ = _ =>
    destruct (update_loop (fun (_ : Z) y => fmul y (fdiv fone (f_of_Z 256))) b 0 256 s0) as (u & E5 & L6 & Q5 & _) end.
  { lia. } { lia. } { rewrite fft_bwd_length. lia. }
  { intros k s y Hk Ls Hs _. rewrite Hs. reflexivity. }
  rewrite fft_bwd_length in L6. rewrite E5. cbn [bind].
  assert (EU : u = noise_wave o cur noise).
  { apply list_eq_rd; [unfold noise_wave; now rewrite map_length, fft_bwd_length|]. intros i Hi. rewrite L6 in Hi.
    assert (Hr : rd (fft_bwd o (shaped (o_simd o) x cur)) i = Ok (nth (Z.to_nat i) (fft_bwd o (shaped (o_simd o) x cur)) zero)) by (apply rd_nth; rewrite fft_bwd_length; lia).
    rewrite (Q5 i _ Hi Hr). symmetry. apply rd_some; [lia|]. unfold noise_wave. fold x. rewrite nth_error_map.
    apply rd_inv in Hr as [_ Hr]. rewrite Hr. reflexivity. }
  subst u. rewrite (combine_either o) by assumption. reflexivity.
Qed.

(* ---- phases, extension, clipping ---- *)
Lemma two_pi_noise : WHITE_NOISE_SCALAR = fdiv two_pi (f_of_Z 53125).
Proof. vm_compute. reflexivity. Qed.
Lemma wrap_eq : forall x, wrap_phase x = wrap x.
Proof. reflexivity. Qed.
Lemma count_value : forall m, 0 <= p_L m <= 56 -> length (p_Vl m) = 57%nat -> count_unvoiced (p_L m) (p_Vl m) = Ok (unvoiced_count m).
Proof.
  intros m HL LV. unfold count_unvoiced, unvoiced_count, for_up. rewrite Z.sub_0_r.
  transitivity (loop (Z.to_nat (p_L m + 1)) 0 1 (fun k s => x <- rd (p_Vl m) k ;; Ok (if x =? 0 then s + 1 else s)) 0); [reflexivity|].
  rewrite (fold_cells (fun s x => if x =? 0 then s + 1 else s) (p_Vl m)) by lia. cbn [Z.to_nat skipn]. f_equal.
  assert (K : forall (l : list Z) s, fold_left (fun s x => if x =? 0 then s + 1 else s) l s = s + Z.of_nat (length (filter (Z.eqb 0) l))).
  { induction l as [|y l IH]; intros s; [cbn; lia|]. cbn [fold_left filter]. rewrite IH. rewrite (Z.eqb_sym 0 y). destruct (y =? 0); cbn [length]; lia. }
  now rewrite K.
Qed.
Definition phi_val (c p : parms) (cw0 pw0 : f32) (nu : Z) (noise : list f32) (l : Z) : f32 :=
  let psi := advance cw0 pw0 l (wrap (cell zero (p_PSIl p) l)) in
  if l <=? p_L c / 4 then psi else fadd psi (fdiv (fmul (f_of_Z nu) (noise_angle (cell zero noise l))) (f_of_Z (p_L c))).
Lemma phases_value : forall cw0 pw0 nu noise c p, wf_parms c -> wf_parms p -> 0 <= p_L c -> length noise = 256%nat ->
  for_up 1 57 (update_phase cw0 pw0 nu noise) (c, p) =
  Ok (set_PHIl (replaced zero 1 56 (phi_val c p cw0 pw0 nu noise) (p_PHIl c))
        (set_PSIl (replaced zero 1 56 (fun l => advance cw0 pw0 l (wrap (cell zero (p_PSIl p) l))) (p_PSIl c)) c),
      set_PSIl (replaced zero 1 56 (fun l => wrap (cell zero (p_PSIl p) l)) (p_PSIl p)) p).
Proof.
  intros cw0 pw0 nu noise c p (_ & _ & _ & C4 & C5 & _) (_ & _ & _ & _ & P5 & _) HL Ln.
  set (A := fun l => advance cw0 pw0 l (wrap (cell zero (p_PSIl p) l))). set (F := phi_val c p cw0 pw0 nu noise). set (Wr := fun l => wrap (cell zero (p_PSIl p) l)).
  destruct (for_up_ok (fun k s => exists ph ps pp, s = (set_PHIl ph (set_PSIl ps c), set_PSIl pp p) /\
     length ph = 57%nat /\ length ps = 57%nat /\ length pp = 57%nat /\
     (forall i, 1 <= i < k -> rd ph i = Ok (F i) /\ rd ps i = Ok (A i) /\ rd pp i = Ok (Wr i)) /\
     (forall i, 0 <= i -> ~ 1 <= i < k -> rd ph i = rd (p_PHIl c) i /\ rd ps i = rd (p_PSIl c) i /\ rd pp i = rd (p_PSIl p) i))
     (update_phase cw0 pw0 nu noise) 1 57 (c, p)) as (s & E & ph & ps & pp & Es & L1 & L2 & L3 & Q1 & Q2).
  - lia.
  - intros k s Hk (ph & ps & pp & -> & L1 & L2 & L3 & Q1 & Q2). unfold update_phase. cbv zeta. fields.
    destruct (Q2 k) as (_ & _ & Q); [lia|lia|]. rewrite Q. rewrite (cell_rd zero (p_PSIl p) k) by lia. cbn [bind].
    rewrite wr_ok by lia. cbn [bind]. rewrite wr_ok by lia. cbn [bind]. rewrite wrap_eq.
    change (fadd (wrap (cell zero (p_PSIl p) k)) (fmul (fadd pw0 cw0) (fdiv (f_of_Z (k * 160)) f_two))) with (A k).
    assert (KF : (if k <=? Z.quot (p_L c) 4 then Ok (A k) else u <- rd noise k ;;
        Ok (fadd (A k) (fdiv (fmul (f_of_Z nu) (fsub (fmul WHITE_NOISE_SCALAR u) PI_F)) (f_of_Z (p_L c))))) = Ok (F k)).
    { rewrite Z.quot_div_nonneg by lia. unfold F, phi_val. fold (A k). destruct (k <=? p_L c / 4); [reflexivity|].
      rewrite (cell_rd zero noise k) by lia. cbn [bind]. unfold noise_angle. rewrite <- two_pi_noise. reflexivity. }
    rewrite KF. cbn [bind]. rewrite wr_ok by lia. cbn [bind]. eexists. split; [reflexivity|]. do 3 eexists. split; [reflexivity|].
    rewrite !set_nth_length. split; [exact L1|]. split; [exact L2|]. split; [exact L3|]. split.
    + intros i Hi. destruct (Z.eq_dec k i) as [<-|N].
      * rewrite !rd_set_same by lia. auto.
      * rewrite !rd_set_other by lia. apply Q1. lia.
    + intros i Hi N. rewrite !rd_set_other by lia. apply Q2; lia.
  - exists (p_PHIl c), (p_PSIl c), (p_PSIl p). split; [now destruct c, p|]. split; [exact C4|]. split; [exact C5|]. split; [exact P5|]. split; [intros; lia|auto].
  - rewrite E, Es. f_equal.
    assert (K1 : ph = replaced zero 1 56 F (p_PHIl c)). { apply replaced_eq; [assumption|assumption| |]; intros i Hi Hi'; [apply Q1; lia|apply Q2; lia]. }
    assert (K2 : ps = replaced zero 1 56 A (p_PSIl c)). { apply replaced_eq; [assumption|assumption| |]; intros i Hi Hi'; [apply Q1; lia|apply Q2; lia]. }
    assert (K3 : pp = replaced zero 1 56 Wr (p_PSIl p)). { apply replaced_eq; [assumption|assumption| |]; intros i Hi Hi'; [apply Q1; lia|apply Q2; lia]. }
    rewrite K1, K2, K3. reflexivity.
Qed.
Lemma extend_value : forall f g m, wf_parms m -> f = p_L m -> 0 <= p_L m -> g <= 56 -> extend_bands f g m = Ok (extended g m).
Proof.
  intros f g m (LV & LM & _) Hf HL Hg. unfold extend_bands. subst f. destruct (Z_le_gt_dec g (p_L m)) as [C|C].
  { rewrite for_up_empty by lia. f_equal. unfold extended. rewrite !replaced_id by (assumption || lia). now destruct m. }
  match goal with |- for_up _ _ ?b _ = _ =>
    destruct (for_up_ok (fun k s => exists M V, s = set_Vl V (set_Ml M m) /\ length M = 57%nat /\ length V = 57%nat /\
     (forall i, p_L m + 1 <= i < k -> rd M i = Ok zero /\ rd V i = Ok 1) /\
     (forall i, 0 <= i -> ~ p_L m + 1 <= i < k -> rd M i = rd (p_Ml m) i /\ rd V i = rd (p_Vl m) i)) b (p_L m + 1) (g + 1) m) as (s & E & M & V & Es & L1 & L2 & Q1 & Q2) end.
  - lia.
  - intros k s Hk (M & V & -> & L1 & L2 & Q1 & Q2). fields. rewrite wr_ok by lia. cbn [bind]. rewrite wr_ok by lia. cbn [bind].
    eexists. split; [reflexivity|]. do 2 eexists. split; [reflexivity|]. rewrite !set_nth_length. split; [exact L1|]. split; [exact L2|]. split.
    + intros i Hi. destruct (Z.eq_dec k i) as [<-|N].
      * rewrite !rd_set_same by lia. auto.
      * rewrite !rd_set_other by lia. apply Q1. lia.
    + intros i Hi N. rewrite !rd_set_other by lia. apply Q2; lia.
  - exists (p_Ml m), (p_Vl m). split; [now destruct m|]. split; [exact LM|]. split; [exact LV|]. split; [intros; lia|auto].
  - rewrite E, Es. f_equal. unfold extended.
    assert (K1 : M = replaced zero (p_L m + 1) g (fun _ => zero) (p_Ml m)). { apply replaced_eq; [assumption|assumption| |]; intros i Hi Hi'; [apply Q1; lia|apply Q2; lia]. }
    assert (K2 : V = replaced 0 (p_L m + 1) g (fun _ => 1) (p_Vl m)). { apply replaced_eq; [assumption|assumption| |]; intros i Hi Hi'; [apply Q1; lia|apply Q2; lia]. }
    rewrite K1, K2. reflexivity.
Qed.
Lemma clip_value : forall s, length s = 160%nat -> mbe_clipFloatBuffer s 160 = Ok (map clip s).
Proof.
  intros s L. unfold mbe_clipFloatBuffer.
  match goal with |- for_up _ _ ?b _ = _ => destruct (update_loop (fun (_ : Z) x => clip x) b 0 160 s) as (r & E & Lr & P & _) end; [lia|lia|lia| |].
  - intros k z x Hk Lz Hz _. rewrite Hz. reflexivity.
  - rewrite E. f_equal. apply list_eq_rd; [rewrite map_length; congruence|]. intros i Hi. rewrite Lr, L in Hi.
    destruct (rd_ok s i) as [x Hx]; [lia|]. rewrite (P i x Hi Hx). symmetry. apply rd_some; [lia|]. rewrite nth_error_map. apply rd_inv in Hx as [_ Hx]. now rewrite Hx.
Qed.

(* ---- the frame ---- *)
Lemma wf_extended : forall g m, wf_parms m -> wf_parms (extended g m).
Proof. intros g m W. unfold wf_parms, extended in *. fields. rewrite !replaced_length. tauto. Qed.
Lemma extended_id : forall g m, wf_parms m -> g <= p_L m -> extended g m = m.
Proof. intros g m (LV & LM & _) H. unfold extended. rewrite !replaced_id by (assumption || lia). now destruct m. Qed.
Lemma whole_seed : forall z, 0 <= z < 53125 -> whole_part (f_of_Z z) = z.
Proof. intros z Hz. pose proof (u32_of_Z z Hz) as H. unfold sf_to_u32 in H. unfold whole_part. destruct (sf_trunc (f_of_Z z)) as [y|]; [|discriminate]. destruct (_ && _); congruence. Qed.
Lemma noise_value : forall seed ov t, generator_seed seed -> length ov = 96%nat ->
  mbe_generate_noise_with_overlap seed ov t = Ok (noise_of seed ov, next_seed seed t, skipn 160 (noise_of seed ov), if cold seed then seed_taken t else t) /\
  length (noise_of seed ov) = 256%nat.
Proof.
  intros seed ov t [C|(z & Hz & ->)] L.
  - rewrite noise_cold by exact C. unfold noise_of, next_seed. rewrite C. split; reflexivity.
  - assert (C : cold (f_of_Z z) = false) by exact (of_Z_nonneg z Hz). rewrite noise_warm by assumption. unfold noise_of, next_seed. rewrite C, whole_seed by exact Hz.
    split; [|rewrite app_length, map_length, seq_length; lia].
    assert (E : skipn 160 (ov ++ map (fun i => f_of_Z (lcg_state z i)) (seq 0 160)) = map (fun i => f_of_Z (lcg_state z (64 + i))) (seq 0 96)).
    { rewrite skipn_app, L. replace (skipn 160 ov) with (@nil spec_float) by (symmetry; apply skipn_all2; lia). cbn [app Nat.sub]. rewrite skipn_map.
      change (skipn 64 (seq 0 160)) with (seq 64 96). rewrite <- (map_map (fun i => (64 + i)%nat) (fun i => f_of_Z (lcg_state z i))). f_equal. }
    rewrite E. reflexivity.
Qed.
Lemma zeros_value : forall aout : list f32, length aout = 160%nat -> exists z, for_up 0 160 (fun i a => wr a i fzero) aout = Ok z /\ length z = 160%nat /\ forall i, 0 <= i < 160 -> rd z i = Ok zero.
Proof.
  intros aout L. destruct (update_loop (fun (_ : Z) (_ : f32) => zero) (fun i a => wr a i fzero) 0 160 aout) as (r & E & Lr & P & _); [lia|lia|lia|reflexivity|].
  exists r. split; [exact E|]. split; [congruence|]. intros i Hi. destruct (rd_ok aout i) as [x Hx]; [lia|]. exact (P i x Hi Hx).
Qed.
Definition after_smoothing (o : oracle) (aout : list f32) (cur prev : parms) (t : tls) : res (list f32 * parms * parms * tls) :=
  '(noise, seed, overlap, t) <- mbe_generate_noise_with_overlap (p_noiseSeed cur) (p_noiseOverlap cur) t ;;
    let cur := set_noiseOverlap overlap (set_noiseSeed seed cur) in
    numUv <- count_unvoiced (p_L cur) (p_Vl cur) ;;
    let cw0 := p_w0 cur in
    let pw0 := p_w0 prev in
    aout <- for_up 0 160 (fun i a => wr a i fzero) aout ;;
    '(cur, prev, maxl) <-
      (if p_L prev <? p_L cur then p <- extend_bands (p_L prev) (p_L cur) prev ;; Ok (cur, p, p_L cur)
       else c <- extend_bands (p_L cur) (p_L prev) cur ;; Ok (c, prev, p_L prev)) ;;
    '(cur, prev) <- for_up 1 57 (update_phase cw0 pw0 numUv noise) (cur, prev) ;;
    aout <- for_up 1 (maxl + 1) (add_harmonic o cw0 pw0 cur prev) aout ;;
    '(aout, cur) <- (if o_plan o then
                       '(aout, uw) <- mbe_synthesizeUnvoicedFFTWithNoise o aout cur prev noise ;;
                       Ok (aout, set_previousUw uw cur)
                     else Ok (aout, cur)) ;;
    aout <- mbe_clipFloatBuffer aout 160 ;;
    Ok (aout, cur, prev, t).
Lemma noise_wave_ext : forall o a b noise, p_w0 a = p_w0 b -> p_L a = p_L b -> wf_parms a -> wf_parms b -> 0 <= p_L a <= 56 ->
  (forall l, 1 <= l <= p_L a -> cell zero (p_Ml a) l = cell zero (p_Ml b) l /\ cell 0 (p_Vl a) l = cell 0 (p_Vl b) l) -> noise_wave o a noise = noise_wave o b noise.
Proof.
  intros o a b noise EW EL _ _ HL H. unfold noise_wave. f_equal. f_equal. set (x := fft_fwd o (windowed noise)). unfold shaped. apply map_ext. intros i. f_equal.
  unfold bin_gain. rewrite <- EL.
  assert (EB : forall l, band_low a l = band_low b l /\ band_high a l = band_high b l) by (intros l; unfold band_low, band_high; rewrite EW; auto).
  set (bin := bin_at (Z.of_nat i)).
  assert (EF : forall ls, (forall l, In l ls -> 1 <= l <= p_L a) ->
     match find (fun l => (band_low a l <=? bin) && (bin <? band_high a l)) ls with Some l => band_gain (o_simd o) x a l | None => zero end =
     match find (fun l => (band_low b l <=? bin) && (bin <? band_high b l)) ls with Some l => band_gain (o_simd o) x b l | None => zero end).
  { induction ls as [|l ls IH]; intros Hin; [reflexivity|]. cbn [find]. destruct (EB l) as [<- <-]. destruct (_ && _).
    - unfold band_gain. destruct (EB l) as [<- <-]. destruct (H l) as [<- <-]; [apply Hin; now left|]. reflexivity.
    - apply IH. intros k Hk. apply Hin. now right. }
  apply EF. intros l Hl. now apply in_upto.
Qed.
Lemma after_value : forall o aout cur prev t, wf_parms cur -> wf_parms prev -> 0 <= p_L cur <= 56 -> 0 <= p_L prev <= 56 -> ok_pitch (p_w0 cur) ->
  generator_seed (p_noiseSeed cur) -> length aout = 160%nat -> after_smoothing o aout cur prev t = Ok (spoken o cur prev t).
Proof.
  intros o aout cur prev t WC WP LC LP PW SD LA. unfold after_smoothing.
  destruct (noise_value (p_noiseSeed cur) (p_noiseOverlap cur) t SD) as [EN LN]; [apply WC|]. rewrite EN. cbn [bind]. cbv zeta. clear EN.
  unfold spoken, spoken_sample, spoken_cur. unfold spoken_voice at 1 2. cbv zeta. set (noise := noise_of (p_noiseSeed cur) (p_noiseOverlap cur)) in *.
  set (seed := next_seed (p_noiseSeed cur) t). set (t' := if cold (p_noiseSeed cur) then seed_taken t else t).
  set (c2 := set_noiseOverlap (skipn 160 noise) (set_noiseSeed seed cur)).
  assert (W2 : wf_parms c2). { unfold c2, wf_parms in *. fields. rewrite skipn_length, LN. tauto. }
  rewrite (count_value c2) by (exact LC || apply W2). cbn [bind].
  destruct (zeros_value aout LA) as (z & EZ & LZ & PZ). rewrite EZ. cbn [bind].
  assert (EX : (if p_L prev <? p_L c2 then p <- extend_bands (p_L prev) (p_L c2) prev ;; Ok (c2, p, p_L c2)
       else c <- extend_bands (p_L c2) (p_L prev) c2 ;; Ok (c, prev, p_L prev)) =
     Ok (extended (p_L prev) c2, extended (p_L c2) prev, Z.max (p_L cur) (p_L prev))).
  { change (p_L c2) with (p_L cur). destruct (Z.ltb_spec (p_L prev) (p_L cur)) as [C|C].
    - rewrite extend_value by (auto; lia). cbn [bind]. rewrite (extended_id (p_L prev) c2) by (auto; change (p_L c2) with (p_L cur); lia). now rewrite Z.max_l by lia.
    - rewrite (extend_value (p_L cur) (p_L prev) c2) by (auto; try reflexivity; change (p_L c2) with (p_L cur); lia). cbn [bind].
      rewrite (extended_id (p_L cur) prev) by (auto; lia). now rewrite Z.max_r by lia. }
  rewrite EX. cbn [bind]. clear EX.
  set (c3 := extended (p_L prev) c2). set (p3 := extended (p_L c2) prev).
  assert (W3 : wf_parms c3) by (apply wf_extended, W2). assert (WP3 : wf_parms p3) by (apply wf_extended, WP).
  rewrite phases_value by (auto; change (p_L c3) with (p_L cur); lia). cbn [bind].
  match goal with |- context [add_harmonic o (p_w0 c2) (p_w0 prev) ?a ?b] => set (c4 := a); set (p4 := b) end.
  assert (EC : c4 = spoken_voice cur prev t) by reflexivity. assert (EP : p4 = spoken_prev cur prev) by reflexivity.
  assert (W4 : wf_parms c4). { unfold c4, wf_parms in *. fields. rewrite !replaced_length. tauto. }
  assert (WP4 : wf_parms p4). { unfold p4, wf_parms in *. fields. rewrite !replaced_length. tauto. }
  destruct (harmonics_value o (p_w0 c2) (p_w0 prev) c4 p4 (Z.max (p_L cur) (p_L prev)) z W4 WP4) as (h & EH & LH & PH); [lia|exact LZ|].
  rewrite EH. cbn [bind].
  assert (KH : forall i, 0 <= i < 160 -> rd h i = Ok (voiced_sample o c4 p4 (Z.to_nat i))) by (intros i Hi; rewrite (PH i zero Hi (PZ i Hi)); reflexivity).
  assert (Hn : h = map (voiced_sample o c4 p4) (seq 0 160)).
  { apply list_eq_rd; [now rewrite map_length, seq_length|]. intros i Hi. rewrite LH in Hi. rewrite rd_map_seq by lia. apply KH. exact Hi. }
  rewrite <- EC, <- EP. destruct (o_plan o).
  - rewrite unvoiced_value by (assumption || exact LC || exact PW). cbn [bind].
    assert (EWv : noise_wave o c4 noise = noise_wave o cur noise).
    { apply noise_wave_ext; [reflexivity|reflexivity|assumption|assumption|exact LC|]. intros l Hl. change (p_L c4) with (p_L cur) in Hl. unfold c4, c3, extended. fields. change (p_L c2) with (p_L cur).
      split.
      - apply rd_cell. rewrite replaced_rd by lia. destruct (Z.leb_spec (p_L cur + 1) l); [lia|]. reflexivity.
      - apply rd_cell. rewrite replaced_rd by lia. destruct (Z.leb_spec (p_L cur + 1) l); [lia|]. reflexivity. }
    rewrite EWv. rewrite clip_value by (unfold overlap_add; now rewrite map_length, seq_length). cbn [bind].
    assert (ES : map clip (overlap_add h (p_previousUw p4) (noise_wave o cur noise)) =
      map (fun n => clip (fadd (voiced_sample o c4 p4 n) (overlap_term (p_previousUw prev) (noise_wave o cur noise) (Z.of_nat n)))) (seq 0 160)).
    { unfold overlap_add. rewrite map_map. apply map_ext_in. intros n Hin. apply in_seq in Hin. f_equal. change (p_previousUw p4) with (p_previousUw prev). f_equal.
      rewrite Hn. rewrite nth_indep with (d' := voiced_sample o c4 p4 0) by (rewrite map_length, seq_length; lia). rewrite map_nth, seq_nth by lia. reflexivity. }
    rewrite ES. reflexivity.
  - cbn [bind]. rewrite clip_value by exact LH. cbn [bind]. rewrite Hn, map_map. reflexivity.
Qed.
Lemma wf_result : forall o e cur prev, wf_parms cur -> wf_parms (smoothing_result o e cur prev).
Proof.
  intros o e cur prev W. unfold smoothing_result. cbv zeta. unfold wf_parms in *. fields. rewrite replaced_length.
  destruct (_ && _); [rewrite replaced_length|]; tauto.
Qed.
Lemma speech_formula : forall o aout a cur prev uvq t, wf_parms cur -> wf_parms prev -> 0 <= p_L cur <= 56 -> 0 <= p_L prev <= 56 ->
  pitch_in_range (p_w0 cur) -> generator_seed (p_noiseSeed cur) -> length aout = 160%nat ->
  0 <= p_errorCountTotal cur <= 1000000 -> p_amplitudeThreshold prev <= 2000000000 -> muted cur = false ->
  mbe_synthesizeSpeechf o aout a cur prev uvq t =
  Ok (spoken o (smoothing_result o (frame_energy t a cur) cur prev) prev (if pending t a then clear_pending t else t)).
Proof.
  intros o aout a cur prev uvq t WC WP LC LP PW SD LA HE HT HM. unfold mbe_synthesizeSpeechf.
  pose proof (smoothing_formula o a cur prev t WC LC HE HT) as E. rewrite E. cbn [bind].
  apply smoothing_but in E. apply muted_smoothing in E. rewrite E, muted_eq, HM. clear E.
  pose proof (wf_result o (frame_energy t a cur) cur prev WC) as W. set (c := smoothing_result o (frame_energy t a cur) cur prev) in *.
  change (after_smoothing o aout c prev (if pending t a then clear_pending t else t) = Ok (spoken o c prev (if pending t a then clear_pending t else t))).
  apply after_value; auto. now apply pitch_ok.
Qed.
Lemma unvoiced_formula : forall o out cur prev noise, wf_parms cur -> wf_parms prev -> 0 <= p_L cur <= 56 -> pitch_in_range (p_w0 cur) ->
  length noise = 256%nat -> length out = 160%nat ->
  mbe_synthesizeUnvoicedFFTWithNoise o out cur prev noise = Ok (overlap_add out (p_previousUw prev) (noise_wave o cur noise), noise_wave o cur noise).
Proof. intros o out cur prev noise WC WP HL W Ln Lo. apply unvoiced_value; auto. now apply pitch_ok. Qed.
