(* Proofs about adaptive smoothing. *)
From Coq Require Import ZArith List Bool Lia Reals Lra.
From Verif Require Import Res F32 MParms MAdaptive PRun PFloat SpecAdaptive.
Import ListNotations.
Local Open Scope Z_scope.

(* folding over cells i .. i+n-1 *)
Lemma fold_cells : forall {A S} (g : S -> A -> S) (l : list A) n i s, 0 <= i -> (Z.to_nat i + n <= length l)%nat ->
  loop n i 1 (fun k s => x <- rd l k ;; Ok (g s x)) s = Ok (fold_left g (firstn n (skipn (Z.to_nat i) l)) s).
Proof.
  intros A S g l. induction n as [|n IH]; intros i s Hi Hn; [reflexivity|]. cbn [loop].
  destruct (rd_ok l i) as [x Hx]; [lia|]. rewrite Hx. cbn [bind].
  apply rd_inv in Hx as [_ Hx]. rewrite IH by lia. f_equal.
  replace (Z.to_nat (i + 1)) with (Datatypes.S (Z.to_nat i)) by lia.
  assert (E : skipn (Z.to_nat i) l = x :: skipn (Datatypes.S (Z.to_nat i)) l).
  { clear - Hx. revert Hx. generalize (Z.to_nat i). intros m. revert l. induction m as [|m IHm]; intros [|y l] H; try discriminate H.
    - cbn in H. injection H as ->. reflexivity.
    - cbn [nth_error] in H. cbn [skipn]. rewrite (IHm l H). reflexivity. }
  rewrite E. reflexivity.
Qed.
Lemma sum_bands_ok : forall l L f, 0 <= L < Z.of_nat (length l) ->
  sum_bands l L f = Ok (fold_left (fun s x => fadd s (f x)) (bands l L) fzero).
Proof.
  intros l L f H. unfold sum_bands, for_up, bands. replace (L + 1 - 1) with L by lia.
  rewrite (fold_cells (fun s x => fadd s (f x)) l) by lia. reflexivity.
Qed.
Lemma sum_bands_inv : forall l L f s, sum_bands l L f = Ok s -> L <= 0 \/ L < Z.of_nat (length l).
Proof.
  intros l L f s H. destruct (Z_le_gt_dec L 0) as [|G]; [now left|]. right.
  unfold sum_bands in H. apply Z.nle_gt. intros K.
  assert (Q : Z.of_nat (length l) >= 1 + 0 -> False).
  { intros Hl. assert (L + 1 <= Z.of_nat (length l)); [|lia].
    refine (for_up_inv (fun k (_ : f32) => k <= Z.of_nat (length l)) _ 1 (L + 1) _ s _ _ _ H); try lia.
    intros k a b Hk Ha Hb. apply bind_inv in Hb as (x & Hx & _). apply rd_inv in Hx as [Hx _]. lia. }
  destruct l as [|y l]; [|apply Q; cbn [length]; lia].
  rewrite for_up_step in H by lia. apply bind_inv in H as (x & Hx & _). apply bind_inv in Hx as (y & Hy & _).
  apply rd_inv in Hy as [Hy _]. cbn in Hy. lia.
Qed.

Lemma set_Ml_id : forall m, set_Ml (p_Ml m) m = m.
Proof. now intros []. Qed.

(* the pieces of a successful run *)
Definition smoothed (E : f32) (V : list Z) (T : Z) (M : list f32) (cur : parms) : parms :=
  set_Ml M (set_amplitudeThreshold T (set_Vl V (set_localEnergy E cur))).
Definition voicing_loop (L : Z) (VM : f32) (M : list f32) (V : list Z) : res (list Z) :=
  for_up 1 (L + 1) (fun l V => x <- rd M l ;; if fgt x VM then wr V l 1 else Ok V) V.
Definition scale_loop (L : Z) (scale : f32) (M : list f32) : res (list f32) :=
  for_up 1 (L + 1) (fun l M => x <- rd M l ;; wr M l (fmul x scale)) M.

Lemma smoothing_inv : forall o a cur prev t cur' t',
  mbe_applyAdaptiveSmoothing o a cur prev t = Ok (cur', t') ->
  exists rm0 V Am T M,
    smoothing_rm0 a cur t = Ok (rm0, t') /\
    voicing_loop (p_L cur) (smoothing_VM o (p_errorRate cur) (p_errorCountTotal cur) (p_errorCount4 cur)
                              (smoothing_energy (p_localEnergy prev) rm0)) (p_Ml cur) (p_Vl cur) = Ok V /\
    sum_bands (p_Ml cur) (p_L cur) (fun x => x) = Ok Am /\
    smoothing_Tm (p_errorRate cur) (p_errorCountTotal cur) (p_amplitudeThreshold prev) = Ok T /\
    ((fgt Am (f_of_Z T) && fgt Am fzero = true /\ scale_loop (p_L cur) (fdiv (f_of_Z T) Am) (p_Ml cur) = Ok M) \/
     (fgt Am (f_of_Z T) && fgt Am fzero = false /\ M = p_Ml cur)) /\
    cur' = smoothed (smoothing_energy (p_localEnergy prev) rm0) V T M cur.
Proof.
  intros o a cur prev t cur' t' H. unfold mbe_applyAdaptiveSmoothing in H. cbv zeta in H.
  apply bind_inv in H as ([rm0 t1] & Hr & H). apply bind_inv in H as (V & HV & H). apply bind_inv in H as (Am & HA & H).
  apply bind_inv in H as (T & HT & H). exists rm0, V, Am, T.
  cbn [p_Ml p_Vl p_L set_localEnergy set_Vl set_amplitudeThreshold p_localEnergy p_errorCount4] in H, HV, HA.
  destruct (fgt Am (f_of_Z T) && fgt Am fzero) eqn:E.
  - apply bind_inv in H as (M & HM & H). injection H as <- <-. exists M. repeat split; try assumption. now left.
  - injection H as <- <-. exists (p_Ml cur). repeat split; try assumption. now right.
Qed.

Lemma energy_floor : forall pe rm0, smoothing_energy pe rm0 = S754_nan \/ fle (flit 10000 1) (smoothing_energy pe rm0) = true.
Proof.
  intros pe rm0. unfold smoothing_energy. cbv zeta.
  set (e := fadd _ _). destruct (flt e MIN_LOCAL_ENERGY) eqn:E; [right; vm_compute; reflexivity|].
  destruct (not_lt _ _ E) as [N|[N|N]]; [left; now destruct e|discriminate N|right; exact N].
Qed.

Lemma voicing_spec : forall L VM M V V', voicing_loop L VM M V = Ok V' ->
  length V' = length V /\
  forall i v, rd V i = Ok v ->
    rd V' i = Ok v \/ (1 <= i <= L /\ rd V' i = Ok 1 /\ exists x, rd M i = Ok x /\ fgt x VM = true).
Proof.
  intros L VM M V V' H. unfold voicing_loop in H.
  revert H. apply (for_up_inv0 (fun W => length W = length V /\ forall i v, rd V i = Ok v ->
    rd W i = Ok v \/ (1 <= i <= L /\ rd W i = Ok 1 /\ exists x, rd M i = Ok x /\ fgt x VM = true))).
  - intros k a b Hk [La Ha] Hb. apply bind_inv in Hb as (x & Hx & Hb).
    destruct (fgt x VM) eqn:E; [|injection Hb as <-; split; assumption].
    split; [rewrite (wr_length _ _ _ _ Hb); exact La|]. intros i v Hi.
    destruct (Z.eq_dec i k) as [->|N].
    + right. split; [lia|]. split; [exact (rd_wr_same _ _ _ _ Hb)|]. now exists x.
    + rewrite (rd_wr_other _ _ _ _ _ Hb) by lia. now apply Ha.
  - split; [reflexivity|]. intros i v Hi. now left.
Qed.

Lemma scale_spec : forall L scale M M', scale_loop L scale M = Ok M' -> length M' = length M /\
  (forall i, (i < 1 \/ L < i) -> rd M' i = rd M i) /\
  (forall i x, 1 <= i <= L -> rd M i = Ok x -> rd M' i = Ok (fmul x scale)).
Proof.
  intros L scale M M' H. unfold scale_loop in H. destruct (Z_le_gt_dec 1 (L + 1)) as [Hle|Hgt].
  2:{ rewrite for_up_empty in H by lia. injection H as <-. repeat split; auto. intros i x Hi. lia. }
  assert (I : length M' = length M /\ (forall i, i < 1 \/ L + 1 <= i -> rd M' i = rd M i) /\
    (forall i x, 1 <= i < L + 1 -> rd M i = Ok x -> rd M' i = Ok (fmul x scale))).
  { refine (for_up_inv (fun k a => length a = length M /\ (forall i, i < 1 \/ k <= i -> rd a i = rd M i) /\
      (forall i x, 1 <= i < k -> rd M i = Ok x -> rd a i = Ok (fmul x scale))) _ 1 (L + 1) M M' Hle _ _ H).
  - intros k a b Hk (La & Ha & Hc) Hb. apply bind_inv in Hb as (x & Hx & Hw). repeat split.
    + rewrite (wr_length _ _ _ _ Hw). exact La.
    + intros i Hi. rewrite (rd_wr_other _ _ _ _ _ Hw) by lia. apply Ha. lia.
    + intros i y Hi Hy. destruct (Z.eq_dec i k) as [->|N].
      * rewrite (rd_wr_same _ _ _ _ Hw). rewrite Ha in Hx by lia. congruence.
      * rewrite (rd_wr_other _ _ _ _ _ Hw) by lia. apply Hc; [lia|exact Hy].
  - repeat split; auto. intros i x Hi. lia. }
  destruct I as (A & B & C). repeat split; [exact A| |].
  - intros i Hi. apply B. lia.
  - intros i x Hi. apply C. lia.
Qed.

(* ---- C28 ---- *)
Lemma smoothing_energy_floor : forall o a cur prev t cur' t',
  mbe_applyAdaptiveSmoothing o a cur prev t = Ok (cur', t') ->
  is_nan (p_localEnergy cur') \/ fle (flit 10000 1) (p_localEnergy cur') = true.
Proof.
  intros o a cur prev t cur' t' H. apply smoothing_inv in H as (rm0 & V & Am & T & M & _ & _ & _ & _ & _ & ->).
  apply energy_floor.
Qed.
Lemma smoothing_voicing : forall o a cur prev t cur' t' i v,
  mbe_applyAdaptiveSmoothing o a cur prev t = Ok (cur', t') -> rd (p_Vl cur) i = Ok v ->
  rd (p_Vl cur') i = Ok v \/ rd (p_Vl cur') i = Ok 1.
Proof.
  intros o a cur prev t cur' t' i v H Hv. apply smoothing_inv in H as (rm0 & V & Am & T & M & _ & HV & _ & _ & _ & ->).
  cbn. apply voicing_spec in HV as [_ HV]. destruct (HV i v Hv) as [K|(_ & K & _)]; auto.
Qed.
Lemma smoothing_fields : forall o a cur prev t cur' t',
  mbe_applyAdaptiveSmoothing o a cur prev t = Ok (cur', t') ->
  same_outside_smoothing cur cur' /\ length (p_Ml cur') = length (p_Ml cur) /\ length (p_Vl cur') = length (p_Vl cur) /\
  forall i, i < 1 \/ p_L cur < i -> rd (p_Ml cur') i = rd (p_Ml cur) i /\
    (forall v, rd (p_Vl cur) i = Ok v -> rd (p_Vl cur') i = Ok v).
Proof.
  intros o a cur prev t cur' t' H. apply smoothing_inv in H as (rm0 & V & Am & T & M & _ & HV & _ & _ & HM & ->).
  apply voicing_spec in HV as [LV HV].
  assert (Q : length M = length (p_Ml cur) /\ forall i, i < 1 \/ p_L cur < i -> rd M i = rd (p_Ml cur) i).
  { destruct HM as [[_ HM]|[_ ->]]; [|split; [reflexivity|intros; reflexivity]]. apply scale_spec in HM as (A & B & _). now split. }
  destruct Q as [LM QM]. split; [repeat split|]. cbn [smoothed p_Ml p_Vl set_Ml set_Vl set_amplitudeThreshold set_localEnergy].
  split; [exact LM|]. split; [exact LV|]. intros i Hi. split; [now apply QM|].
  intros v Hv. destruct (HV i v Hv) as [K|(K & _)]; [exact K|lia].
Qed.

(* the energy is a number when its inputs are *)
Lemma energy_sum_nn : forall xs s, Forall (fun x => vf x /\ is_nan_sf x = false) xs -> nn s ->
  nn (fold_left (fun s x => fadd s (fmul x x)) xs s).
Proof.
  induction xs as [|x xs IH]; intros s H Hs; [exact Hs|]. cbn [fold_left]. inversion H as [|y ys [Vx Nx] Hr]; subst.
  apply IH; [exact Hr|]. apply nn_add; [exact Hs|]. now apply nn_sq.
Qed.
Lemma energy_number : forall pe rm0, vf pe -> is_nan_sf pe = false -> nn rm0 -> is_nan_sf (smoothing_energy pe rm0) = false.
Proof.
  intros pe rm0 V N H. unfold smoothing_energy. cbv zeta.
  set (q := if flt pe MIN_LOCAL_ENERGY then DEFAULT_LOCAL_ENERGY else pe).
  assert (Hq : nn q).
  { unfold q. destruct (flt pe MIN_LOCAL_ENERGY) eqn:E; [split; vm_compute; reflexivity|].
    split; [exact V|]. destruct (not_lt _ _ E) as [K|[K|K]]; [congruence|discriminate K|].
    destruct (is_finite_sf pe) eqn:F.
    - apply fle_true; [split; reflexivity|split; assumption|].
      apply fle_true in K; [|split; vm_compute; reflexivity|split; assumption]. R_val MIN_LOCAL_ENERGY. change (R_of fzero) with 0%R. lra.
    - destruct pe as [s|[|]| |s m e]; try discriminate; reflexivity. }
  assert (He : nn (fadd (fmul SMOOTH_ALPHA q) (fmul SMOOTH_BETA rm0))).
  { apply nn_add; (apply nn_mul; [split; vm_compute; reflexivity| |assumption]).
    - R_val SMOOTH_ALPHA. lra.
    - R_val SMOOTH_BETA. lra. }
  clearbody q. destruct (flt _ MIN_LOCAL_ENERGY); [reflexivity|]. now apply nn_not_nan.
Qed.
Lemma bands_Forall : forall {A} (P : A -> Prop) (l : list A) L, Forall P l -> Forall P (bands l L).
Proof.
  intros A P l L H. unfold bands. apply Forall_forall. intros x Hx. rewrite Forall_forall in H. apply H.
  assert (In x (tl l)) by (rewrite <- (firstn_skipn (Z.to_nat L) (tl l)); apply in_or_app; now left).
  destruct l; [assumption|now right].
Qed.
Lemma smoothing_energy_number : forall o a cur prev t cur' t',
  mbe_applyAdaptiveSmoothing o a cur prev t = Ok (cur', t') ->
  binary32 (p_localEnergy prev) -> ~ is_nan (p_localEnergy prev) ->
  Forall (fun x => binary32 x /\ ~ is_nan x) (bands (p_Ml cur) (p_L cur)) ->
  binary32 (t_rm0 t) -> (pending t a = true -> fle (S754_zero false) (t_rm0 t) = true) ->
  fle (flit 10000 1) (p_localEnergy cur') = true.
Proof.
  intros o a cur prev t cur' t' H Vp Np HM Vt Ht.
  destruct (smoothing_energy_floor _ _ _ _ _ _ _ H) as [N|F]; [exfalso|exact F].
  apply smoothing_inv in H as (rm0 & V & Am & T & M & Hr & _ & _ & _ & _ & ->). unfold is_nan in N.
  cbn [smoothed p_localEnergy set_Ml set_Vl set_amplitudeThreshold set_localEnergy] in N.
  assert (P : nn rm0).
  { unfold smoothing_rm0 in Hr. fold (pending t a) in Hr. destruct (pending t a) eqn:E.
    - injection Hr as <- _. split; [exact Vt|now apply Ht].
    - apply bind_inv in Hr as (s & Hs & Hr). injection Hr as <- _.
      destruct (sum_bands_inv _ _ _ _ Hs) as [K|K].
      + unfold sum_bands in Hs. rewrite for_up_empty in Hs by lia. injection Hs as <-. split; reflexivity.
      + destruct (Z_le_gt_dec 0 (p_L cur)) as [G|G].
        * rewrite sum_bands_ok in Hs by lia. injection Hs as <-. apply energy_sum_nn; [|split; reflexivity].
          rewrite Forall_forall in *. intros x Hx. destruct (HM x Hx) as [A B]. split; [exact A|].
          unfold is_nan in B. destruct x; try reflexivity. congruence.
        * unfold sum_bands in Hs. rewrite for_up_empty in Hs by lia. injection Hs as <-. split; reflexivity. }
  assert (Q : is_nan_sf (smoothing_energy (p_localEnergy prev) rm0) = false).
  { apply energy_number; [exact Vp| |exact P]. unfold is_nan in Np. destruct (p_localEnergy prev); try reflexivity. congruence. }
  rewrite N in Q. discriminate Q.
Qed.

(* ---- C27 ---- *)
Lemma clean_VM : forall o rate total c4 e, fle rate (flit 5 1000) = true -> total <= 4 ->
  smoothing_VM o rate total c4 e = FLT_MAX.
Proof.
  intros o rate total c4 e Hr Ht. unfold smoothing_VM. change LOW with (flit 5 1000). rewrite Hr.
  assert (E : (total <=? 4) = true) by (apply Z.leb_le; lia). rewrite E. reflexivity.
Qed.
Lemma clean_smoothing : forall o a cur prev t cur' t',
  mbe_applyAdaptiveSmoothing o a cur prev t = Ok (cur', t') ->
  fle (p_errorRate cur) (flit 5 1000) = true -> p_errorCountTotal cur <= 4 -> 0 <= p_L cur ->
  p_amplitudeThreshold cur' = 20480 /\
  (forall l v x, rd (p_Vl cur) l = Ok v -> rd (p_Ml cur) l = Ok x -> binary32 x -> finite x -> rd (p_Vl cur') l = Ok v) /\
  (flt (flit 20480 1) (float_sum (bands (p_Ml cur) (p_L cur))) = false -> p_Ml cur' = p_Ml cur) /\
  (flt (flit 20480 1) (float_sum (bands (p_Ml cur) (p_L cur))) = true -> forall l x, 1 <= l <= p_L cur ->
     rd (p_Ml cur) l = Ok x ->
     rd (p_Ml cur') l = Ok (fmul x (fdiv (flit 20480 1) (float_sum (bands (p_Ml cur) (p_L cur)))))).
Proof.
  intros o a cur prev t cur' t' H Hr Ht HL.
  apply smoothing_inv in H as (rm0 & V & Am & T & M & _ & HV & HA & HT & HM & ->).
  assert (ET : T = 20480).
  { unfold smoothing_Tm in HT. change LOW with (flit 5 1000) in HT. rewrite Hr in HT.
    assert (E : (p_errorCountTotal cur <=? 6) = true) by (apply Z.leb_le; lia). rewrite E in HT. cbn [andb] in HT.
    injection HT as <-. reflexivity. }
  subst T. rewrite clean_VM in HV by assumption.
  assert (EA : Am = float_sum (bands (p_Ml cur) (p_L cur))).
  { destruct (sum_bands_inv _ _ _ _ HA) as [K|K].
    - replace (p_L cur) with 0 in * by lia. unfold sum_bands in HA. rewrite for_up_empty in HA by lia. injection HA as <-. reflexivity.
    - rewrite sum_bands_ok in HA by lia. injection HA as <-. reflexivity. }
  subst Am. set (S := float_sum (bands (p_Ml cur) (p_L cur))) in *.
  assert (ES : fgt S (f_of_Z 20480) && fgt S fzero = flt (flit 20480 1) S).
  { change (f_of_Z 20480) with (flit 20480 1). unfold fgt at 1. fold (flt (flit 20480 1) S).
    destruct (flt (flit 20480 1) S) eqn:E; [|reflexivity]. cbn [andb]. unfold fgt. revert E. clear.
    destruct S as [s|[|]| |[|] m e]; intros E; try discriminate E; try reflexivity. }
  cbn [smoothed p_amplitudeThreshold p_Vl p_Ml set_Ml set_Vl set_amplitudeThreshold set_localEnergy].
  split; [reflexivity|]. split; [|split].
  - intros l v x Hv Hx Vx Fx. apply voicing_spec in HV as [_ HV]. destruct (HV l v Hv) as [K|(_ & K & y & Hy & Hg)]; [exact K|].
    exfalso. rewrite Hx in Hy. injection Hy as <-. unfold fgt in Hg. change (SFltb FLT_MAX x) with (flt FLT_MAX x) in Hg.
    apply flt_true in Hg; [|exact ff_max|split; [exact Vx|now destruct x]]. pose proof (le_FLT_MAX x Vx). lra.
  - intros E. rewrite ES, E in HM. destruct HM as [[K _]|[_ K]]; [discriminate K|exact K].
  - intros E l x Hl Hx. rewrite ES, E in HM. destruct HM as [[_ K]|[K _]]; [|discriminate K].
    apply scale_spec in K as (_ & _ & K). exact (K l x Hl Hx).
Qed.

(* ---- C51, the smoothing call ---- *)
Lemma handoff_used : forall o a cur prev t cur' t',
  mbe_applyAdaptiveSmoothing o a cur prev t = Ok (cur', t') -> pending t a = true ->
  t' = clear_pending t.
Proof.
  intros o a cur prev t cur' t' H Hp. apply smoothing_inv in H as (rm0 & V & Am & T & M & Hr & _).
  unfold smoothing_rm0 in Hr. fold (pending t a) in Hr. rewrite Hp in Hr. injection Hr as _ <-. reflexivity.
Qed.
Lemma handoff_value : forall o a cur prev t u, pending t a = true -> pending u a = false ->
  energy_sum (bands (p_Ml cur) (p_L cur)) = t_rm0 t -> 0 <= p_L cur < Z.of_nat (length (p_Ml cur)) ->
  res_rel (fun x y => fst x = fst y) (mbe_applyAdaptiveSmoothing o a cur prev t) (mbe_applyAdaptiveSmoothing o a cur prev u).
Proof.
  intros o a cur prev t u Ht Hu HE HL. unfold mbe_applyAdaptiveSmoothing, smoothing_rm0. cbv zeta.
  fold (pending t a) (pending u a). rewrite Ht, Hu. rewrite sum_bands_ok by exact HL. cbn [bind]. fold (energy_sum (bands (p_Ml cur) (p_L cur))). 
  unfold energy_sum in HE. change (S754_zero false) with fzero in HE. rewrite HE.
  apply (bind_rel eq); [apply res_rel_refl|intros V ? <-]. apply (bind_rel eq); [apply res_rel_refl|intros Am ? <-].
  apply (bind_rel eq); [apply res_rel_refl|intros T ? <-]. destruct (_ && _); [|reflexivity].
  apply (bind_rel eq); [apply res_rel_refl|intros M ? <-]. reflexivity.
Qed.
Lemma handoff_other : forall o a cur prev t u cur' t',
  pending t a = false -> mbe_applyAdaptiveSmoothing o a cur prev t = Ok (cur', t') ->
  t' = t /\ (pending u a = false -> mbe_applyAdaptiveSmoothing o a cur prev u = Ok (cur', u)).
Proof.
  intros o a cur prev t u cur' t' Ht H. unfold mbe_applyAdaptiveSmoothing, smoothing_rm0 in *. cbv zeta in *.
  fold (pending t a) in H. rewrite Ht in H.
  apply bind_inv in H as ([rm0 t1] & Hr & H). apply bind_inv in Hr as (s & Hs & Hr). injection Hr as <- <-.
  apply bind_inv in H as (V & HV & H). apply bind_inv in H as (Am & HA & H). apply bind_inv in H as (T & HT & H).
  split.
  - destruct (_ && _); [apply bind_inv in H as (M & _ & H)|]; now injection H.
  - intros Hu. fold (pending u a). rewrite Hu, Hs. cbn [bind]. rewrite HV. cbn [bind]. rewrite HA. cbn [bind]. rewrite HT. cbn [bind].
    destruct (_ && _); [apply bind_inv in H as (M & HM & H); rewrite HM; cbn [bind]|]; injection H as <- _; reflexivity.
Qed.
