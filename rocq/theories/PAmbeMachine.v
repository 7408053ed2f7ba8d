(* AMBE process calls: the state machine. *)
From Coq Require Import ZArith List Bool Lia Reals Lra.
From Verif Require Import Res F32 TabAmbe2450 MFrame MParms MAdaptive MUnvoiced MSynth MImbe MAmbe SpecEcc SpecFrame SpecState SpecAdaptive SpecGen SpecOut SpecWola SpecImbe SpecAmbe SpecEnh SpecMachine SpecTone SpecAmbeMachine
  PBase PRun PLoop PState PFloat PFloat2 PArr PAdapt PGen POut PWola PSpeech PConv PDec PImbe PExp2 PAmbeDec PAmbeDec2 PEnh PNyq PMachine PStream PTone.
From Flocq Require Import Core.Core IEEE754.BinarySingleNaN.
Import ListNotations.
Local Open Scope Z_scope.

(* ---- entry ---- *)
Lemma ensure_ok : forall cur prev enh, wf_parms prev -> mbe_ensureAmbeDefaults_common cur prev enh = Ok (begin (cur, prev, enh)).
Proof.
  intros cur prev enh W. unfold mbe_ensureAmbeDefaults_common, begin. cbn [prev_of].
  change (foreign prev) with (fgt (fabs (fsub (p_mutingThreshold prev) MUTING_AMBE)) f_1em6).
  destruct (fgt (fabs (fsub (p_mutingThreshold prev) MUTING_AMBE)) f_1em6); [apply init_ambe, W|reflexivity].
Qed.
Lemma entry_eq : forall n cur prev, ambe_set_errors n cur prev = with_errors n (ambe_rate (p_errorRate prev) n) cur.
Proof. intros. reflexivity. Qed.
Lemma clear_eq : forall m, clear_repeat m = no_repeats m. Proof. reflexivity. Qed.
Lemma clear_set : forall r m, no_repeats (set_repeat r m) = no_repeats m. Proof. reflexivity. Qed.
Lemma phases_clear : forall m, p_swn (no_repeats m) = p_swn m /\ p_un (no_repeats m) = p_un m. Proof. auto. Qed.
Lemma phases_errors : forall n r m, p_swn (with_errors n r m) = p_swn m /\ p_un (with_errors n r m) = p_un m. Proof. auto. Qed.
Lemma sane_begin : forall st, sane_state st -> sane_state (begin st).
Proof. intros st S. unfold begin. destruct (foreign (prev_of st)); [apply sane_start_ambe|exact S]. Qed.
Lemma repeat_last_ok : forall m, 0 <= p_repeat m <= 1000 -> 0 <= p_repeatCount m <= 1000 -> repeat_last m = Ok (one_more m).
Proof. intros m A B. unfold repeat_last, mbe_useLastMbeParms. rewrite !to_int_ok by lia. reflexivity. Qed.

(* copying an array *)
Definition copied {A} (n : nat) (k : Z) (src a : list A) : Prop := length a = n /\ forall j, (j < Z.to_nat k)%nat -> nth_error a j = nth_error src j.
Lemma copied_step : forall {A} n k (src a : list A), copied n k src a -> length src = n -> 0 <= k < Z.of_nat n ->
  exists v a', rd src k = Ok v /\ wr a k v = Ok a' /\ copied n (k + 1) src a'.
Proof.
  intros A n k src a [L H] LS Hk. destruct (nth_error src (Z.to_nat k)) as [v|] eqn:E; [|apply nth_error_None in E; lia].
  exists v, (set_nth (Z.to_nat k) v a). split; [apply rd_some; [lia|exact E]|].
  split; [rewrite wr_ok by lia; reflexivity|]. split; [now rewrite set_nth_length|]. intros j Hj.
  destruct (Nat.eq_dec j (Z.to_nat k)) as [->|N]; [rewrite nth_set_nth_same by lia; now rewrite E|]. rewrite nth_set_nth_other by lia. apply H. lia.
Qed.
Lemma copied_all : forall {A} n (src a : list A), copied n (Z.of_nat n) src a -> length src = n -> a = src.
Proof. intros A n src a [L H] LS. apply list_eq_nth; [lia|]. intros i Hi. apply H. lia. Qed.

Lemma erasure_ok : forall mp src, wf_parms mp -> wf_parms src -> mbe_setAmbeErasureParms_common (no_repeats mp) src = Ok (erased mp src).
Proof.
  intros mp src (LV & LM & LG & LP & LS & _) (_ & _ & _ & LP' & LS' & _). unfold mbe_setAmbeErasureParms_common. cbv zeta.
  set (m0 := set_gamma fzero (set_K 0 (set_L 9 (set_w0 fzero (set_un 0 (set_swn 0 (no_repeats mp))))))).
  match goal with |- context [for_up 0 57 ?f m0] =>
    destruct (for_up_ok (fun k m' => exists a b c d e, m' = with_bands m0 a b c d e /\
      filled 57 k fone a /\ filled 57 k 0 b /\ filled 57 k fzero c /\ copied 57 k (p_PHIl src) d /\ copied 57 k (p_PSIl src) e) f 0 57 m0) as (m' & -> & HP) end; [lia| | |].
  - intros k m' Hk (a & b & c & d & e & -> & Fa & Fb & Fc & Fd & Fe).
    destruct (filled_step _ _ _ _ Fa) as (a' & Wa & Fa'); [lia|].
    destruct (filled_step _ _ _ _ Fb) as (b' & Wb & Fb'); [lia|].
    destruct (filled_step _ _ _ _ Fc) as (c' & Wc & Fc'); [lia|].
    destruct (copied_step _ _ _ _ Fd LP') as (vd & d' & Rd & Wd & Fd'); [lia|].
    destruct (copied_step _ _ _ _ Fe LS') as (ve & e' & Re & We & Fe'); [lia|].
    exists (with_bands m0 a' b' c' d' e'). split.
    + unfold with_bands. fields. rewrite Wa. cbn [bind]. rewrite Wb. cbn [bind]. rewrite Wc. cbn [bind]. rewrite Rd. cbn [bind]. rewrite Wd. cbn [bind]. rewrite Re. cbn [bind]. rewrite We. reflexivity.
    + exists a', b', c', d', e'. auto 10.
  - exists (p_Ml m0), (p_Vl m0), (p_log2Ml m0), (p_PHIl m0), (p_PSIl m0). split; [destruct mp; reflexivity|].
    repeat split; try assumption; try (intros; lia).
  - destruct HP as (a & b & c & d & e & -> & Fa & Fb & Fc & Fd & Fe). cbn [bind].
    apply (filled_all 57) in Fa. apply (filled_all 57) in Fb. apply (filled_all 57) in Fc. apply (copied_all 57) in Fd; [|exact LP']. apply (copied_all 57) in Fe; [|exact LS']. subst.
    destruct mp, src. reflexivity.
Qed.
Lemma sane_erased : forall m src, sane m -> sane src -> sane (erased m src).
Proof.
  intros m src (WM & LM & PM & SM & TM & RM & RRM) (WS & LS & PS & SS & TS & RS & RRS). destruct WS as (A1 & A2 & A3 & A4 & A5 & A6 & A7).
  unfold sane, erased, wf_parms. cbn [p_w0 p_L p_K p_Vl p_Ml p_log2Ml p_PHIl p_PSIl p_noiseSeed p_errorCountTotal p_repeat p_repeatCount p_previousUw p_noiseOverlap].
  rewrite !repeat_length. repeat split; try assumption; try reflexivity; try lia.
Qed.
Lemma sane_with_errors : forall n r m, 0 <= n <= 100 -> sane m -> sane (with_errors n r m).
Proof. intros n r m Hn (WM & LM & PM & SM & TM & RM & RRM). unfold sane, with_errors, wf_parms in *. fields. tauto. Qed.
Lemma sane_no_repeats : forall m, sane m -> sane (no_repeats m).
Proof. intros m (WM & LM & PM & SM & TM & RM & RRM). unfold sane, no_repeats, wf_parms in *. fields. (split; [exact WM|]); (split; [exact LM|]); (split; [exact PM|]); (split; [exact SM|]); (split; [exact TM|]); split; lia. Qed.
Lemma sane_one_more : forall m, sane m -> p_repeatCount m <= 3 -> sane (one_more m).
Proof. intros m (WM & LM & PM & SM & TM & RM & RRM) H. unfold sane, one_more, wf_parms in *. fields. (split; [exact WM|]); (split; [exact LM|]); (split; [exact PM|]); (split; [exact SM|]); (split; [exact TM|]); split; lia. Qed.

(* ---- decoded voice frames ---- *)
Lemma accepted_sane : forall L w0 g v cur prev cur' prev', ambe_accepted L w0 g v cur prev cur' prev' -> sane cur -> sane prev -> 9 <= L <= 56 -> pitch_in_range w0 ->
  sane (no_repeats cur') /\ sane prev'.
Proof.
  intros L w0 g v cur prev cur' prev' (AL & AW & AR & AG & AV & (V1 & _) & (M1 & _) & (G1 & _) & EC & (X1 & _) & (X2 & _) & EP) (WM & LM & PM & SM & TM & RM & RRM) (WS & LS & PS & SS & TS & RS & RRS) HL HW.
  assert (WC : wf_parms cur'). { unfold wf_parms in *. rewrite V1, M1, G1, EC. fields. tauto. }
  assert (WP : wf_parms prev'). { unfold wf_parms in *. rewrite X1, X2, EP. fields. tauto. }
  split.
  - unfold sane, no_repeats. fields. split; [exact WC|]. rewrite AL, AW. split; [lia|]. split; [exact HW|]. rewrite EC. fields. repeat split; try assumption; lia.
  - unfold sane. split; [exact WP|]. rewrite EP. fields. tauto.
Qed.
Lemma accepted_bands : forall L w0 g v cur prev cur' prev', ambe_accepted L w0 g v cur prev cur' prev' -> same_bands prev prev'.
Proof.
  intros L w0 g v cur prev cur' prev' (AL & AW & AR & AG & AV & _ & _ & _ & EC & (X1 & _ & X3 & _) & (X2 & _ & X4 & _) & EP). unfold same_bands.
  assert (Q : p_w0 prev' = p_w0 prev /\ p_L prev' = p_L prev /\ p_K prev' = p_K prev /\ p_Vl prev' = p_Vl prev /\ p_gamma prev' = p_gamma prev) by (rewrite EP; auto).
  destruct Q as (Q1 & Q2 & Q3 & Q4 & Q5). repeat split; try assumption; [apply X3|apply X4]; lia.
Qed.
Lemma accepted_others : forall L w0 g v cur prev cur' prev', ambe_accepted L w0 g v cur prev cur' prev' -> p_errorRate prev' = p_errorRate prev /\ p_repeat prev' = p_repeat prev /\ p_repeatCount prev' = p_repeatCount prev
  /\ p_mutingThreshold prev' = p_mutingThreshold prev /\ p_noiseSeed prev' = p_noiseSeed prev /\ p_errorCountTotal prev' = p_errorCountTotal prev.
Proof. intros L w0 g v cur prev cur' prev' (_ & _ & _ & _ & _ & _ & _ & _ & _ & _ & _ & EP). rewrite EP. auto 10. Qed.

(* the rest of a call after a voice frame has been decoded *)
Definition voice_rest (o : oracle) (a : Z) (aout : list f32) (need : bool) (n : Z) (c1 p1 enh : parms) (uvq : Z) (t : tls) : res (list f32 * list Z * dstate * tls) :=
  if need && (3 <=? p_repeat p1)
  then '(b, t') <- mbe_synthesizeComfortNoisef aout t ;; Ok (b, status n [82; 77], start_ambe, t')
  else '(b, st, t') <- ambe_speak o a aout (if need then one_more p1 else no_repeats c1) enh uvq t ;; Ok (b, status n (if need then [82] else []), st, t').
Lemma begin_split : forall st, exists c p e, begin st = (c, p, e).
Proof. intros st. destruct (begin st) as [[c p] e]. eauto. Qed.
Lemma needs_eq : forall n c0 cv, ambe2450_repeat_required n c0 cv = needs2450 n (context c0 cv).
Proof. intros n c0 []; reflexivity. Qed.
Lemma voice2450 : forall o a aout n d st uvq c0 cv t c p e c1 p1, wf_parms (prev_of st) -> begin st = (c, p, e) ->
  mbe_decodeAmbe2450ParmsInternal o d (with_errors n (ambe_rate (p_errorRate p) n) c) p n = Ok (0, c1, p1) -> wf_parms p1 -> 0 <= p_repeat p1 <= 1000 -> 0 <= p_repeatCount p1 <= 1000 ->
  mbe_processAmbe2450Dataf_internal o a aout n d st uvq c0 cv t = voice_rest o a aout (needs2450 n (context c0 cv)) n c1 p1 e uvq t.
Proof.
  intros o a aout n d [[cur prev] enh] uvq c0 cv t c p e c1 p1 W B HD WP HR HC. cbn [prev_of] in W. unfold mbe_processAmbe2450Dataf_internal. rewrite ensure_ok by exact W. cbn [bind]. rewrite B. cbn [bind].
  rewrite entry_eq, HD. cbn [bind]. change (0 =? 2) with false. change ((0 =? 3) || (0 =? 7)) with false. change (0 =? 0) with true. cbv iota. rewrite needs_eq. unfold voice_rest.
  destruct (needs2450 n (context c0 cv)).
  - rewrite repeat_last_ok by assumption. cbn [bind andb]. replace (p_repeat (one_more p1) <=? 3) with (negb (3 <=? p_repeat p1)) by (unfold one_more; fields; destruct (Z.leb_spec 3 (p_repeat p1)), (Z.leb_spec (p_repeat p1 + 1) 3); cbn; lia).
    destruct (3 <=? p_repeat p1); cbn [negb].
    + unfold ambe_noise_reset. destruct (mbe_synthesizeComfortNoisef aout t) as [[b t']|w]; [|reflexivity]. cbn [bind]. rewrite init_ambe by exact WP. reflexivity.
    + destruct (ambe_speak o a aout (one_more p1) e uvq t) as [[[b s] t']|w]; reflexivity.
  - cbn [bind andb]. change (p_repeat (clear_repeat c1) <=? 3) with true. cbv iota. rewrite clear_eq. destruct (ambe_speak o a aout (no_repeats c1) e uvq t) as [[[b s] t']|w]; reflexivity.
Qed.

(* ---- kinds of frames ---- *)
Lemma same_list_spec : forall a b, same_list a b = true <-> a = b.
Proof. intros a b. unfold same_list. destruct (list_eq_dec Z.eq_dec a b); split; congruence. Qed.
Lemma signature_spec : forall d, signature d = true <-> tone2450 d.
Proof. intros d. unfold signature, tone2450. rewrite andb_true_iff, orb_true_iff, !same_list_spec. tauto. Qed.
Lemma kind_cases : forall d n, is_bits 49 d ->
  (tone2450 d /\ n < 6 /\ match tone_hz (tone_id d) with Some hz => kind2450 d n = Tone hz | None => kind2450 d n = UnknownTone end) \/
  (~ (tone2450 d /\ n < 6) /\ erasure2450 (pitch2450 d) /\ kind2450 d n = Erasure) \/ (~ (tone2450 d /\ n < 6) /\ ~ erasure2450 (pitch2450 d) /\ kind2450 d n = Voice).
Proof.
  intros d n Hd. unfold kind2450. pose proof (pitch2450_range d Hd) as R. destruct (signature d && (n <? 6)) eqn:E.
  - apply andb_true_iff in E as [E1 E2]. apply signature_spec in E1. left. split; [exact E1|]. split; [lia|]. destruct (tone_hz (tone_id d)); reflexivity.
  - right. assert (N : ~ (tone2450 d /\ n < 6)). { intros [A B]. apply signature_spec in A. rewrite A in E. cbn in E. lia. }
    destruct ((120 <=? pitch2450 d) && (pitch2450 d <=? 123) || (126 <=? pitch2450 d)) eqn:F; [left|right]; (split; [exact N|]); (split; [unfold erasure2450; lia|reflexivity]).
Qed.
Lemma w0_all : forallb (fun b => let w := w0_2450 b in SpecFloat.valid_binary 24 128 w && (match w with S754_finite _ _ _ | S754_zero _ => true | _ => false end) && fle (S754_zero false) w && fle w (f_of_Z 1000)) (zrange 126) = true.
Proof. vm_compute. reflexivity. Qed.

Lemma w0_range : forall b, 0 <= b < 126 -> pitch_in_range (w0_2450 b).
Proof.
  intros b Hb. pose proof (zrange_forallb 126 _ w0_all b Hb) as Q. cbv beta zeta in Q. set (w := w0_2450 b) in *. clearbody w.
  apply andb_true_iff in Q as [Q Q4]. apply andb_true_iff in Q as [Q Q3]. apply andb_true_iff in Q as [Q1 Q2]. split; [exact Q1|]. split; [destruct w; try discriminate Q2; exact I|]. split; assumption.
Qed.
Lemma f0_range : forall o b, 0 <= b < 126 -> exp2_close o (exponent2400 b) -> pitch_in_range (radians (exp2f o (exponent2400 b))).
Proof.
  intros o b Hb HE. destruct (f0_bounds o b Hb HE) as (F & R0 & R1). destruct (radians_small _ F ltac:(lra)) as [G H]. apply pitch_back. split; [exact G|lra].
Qed.

(* ---- the other kinds ---- *)
Lemma tone_process : forall o a aout n d st uvq c0 cv t c p e hz, is_bits 49 d -> length aout = 160%nat -> wf_parms (prev_of st) -> begin st = (c, p, e) -> kind2450 d n = Tone hz ->
  mbe_processAmbe2450Dataf_internal o a aout n d st uvq c0 cv t =
  Ok (tone_heard o hz (tone_amp d) c, status n [84], (tone_turned o hz c (no_repeats (with_errors n (ambe_rate (p_errorRate p) n) c)), p, e), t).
Proof.
  intros o a aout n d [[cur prev] enh] uvq c0 cv t c p e hz Hd LA W B HK. cbn [prev_of] in W. unfold mbe_processAmbe2450Dataf_internal. rewrite ensure_ok by exact W. cbn [bind]. rewrite B. cbn [bind]. rewrite entry_eq.
  destruct (kind_cases d n Hd) as [(T & N & E)|[(_ & _ & E)|(_ & _ & E)]]; [|congruence|congruence].
  destruct (tone_hz (tone_id d)) as [h|] eqn:EH; [|congruence]. assert (h = hz) by congruence. subst h. clear E.
  rewrite ambe2450_tone by assumption. cbn [bind]. change (7 =? 2) with false. change ((7 =? 3) || (7 =? 7)) with true. change (7 =? 0) with false. change (7 =? 7) with true. cbv iota. cbn [bind].
  destruct (valid_id d Hd) as (v & HV & _ & V). assert (EV : v = true) by (apply V; eauto). rewrite HV, EV. cbn [bind].
  rewrite clear_eq, clear_set. set (w0 := with_errors n (ambe_rate (p_errorRate p) n) c). pose proof (phases_errors n (ambe_rate (p_errorRate p) n) c) as [P1 P2]. fold w0 in P1, P2. clearbody w0.
  rewrite (synth_any o aout d (no_repeats w0) hz Hd LA EH). destruct (phases_clear w0) as [C1 C2]. rewrite (heard_phases o hz _ c), (turned_phases o hz c) by congruence. reflexivity.
Qed.
Lemma unknown_process : forall o a aout n d st uvq c0 cv t c p e, is_bits 49 d -> wf_parms (prev_of st) -> begin st = (c, p, e) -> wf_parms p -> kind2450 d n = UnknownTone ->
  mbe_processAmbe2450Dataf_internal o a aout n d st uvq c0 cv t =
  if p_repeatCount p <? 4
  then '(b, s, e', t') <- mbe_synthesizeSpeechf o aout (-1) e e uvq t ;; Ok (b, status n [84], (no_repeats (with_errors n (ambe_rate (p_errorRate p) n) c), p, s), t')
  else '(b, t') <- mbe_synthesizeComfortNoisef aout t ;; Ok (b, status n [84], start_ambe, t').
Proof.
  intros o a aout n d [[cur prev] enh] uvq c0 cv t c p e Hd W B WP HK. cbn [prev_of] in W. unfold mbe_processAmbe2450Dataf_internal. rewrite ensure_ok by exact W. cbn [bind]. rewrite B. cbn [bind]. rewrite entry_eq.
  destruct (kind_cases d n Hd) as [(T & N & E)|[(_ & _ & E)|(_ & _ & E)]]; [|congruence|congruence].
  destruct (tone_hz (tone_id d)) as [h|] eqn:EH; [congruence|]. clear E.
  rewrite ambe2450_tone by assumption. cbn [bind]. change (7 =? 2) with false. change ((7 =? 3) || (7 =? 7)) with true. change (7 =? 0) with false. change (7 =? 7) with true. cbv iota. cbn [bind].
  destruct (valid_id d Hd) as (v & HV & _ & V). assert (EV : v = false) by (destruct v; [destruct (proj1 V eq_refl) as (hz & Q); congruence|reflexivity]). rewrite HV, EV. cbn [bind].
  replace (negb (mbe_isMaxFrameRepeat p)) with (p_repeatCount p <? 4) by (unfold mbe_isMaxFrameRepeat; change MAX_FRAME_REPEATS with 4; lia).
  rewrite clear_eq, clear_set. set (w0 := with_errors n (ambe_rate (p_errorRate p) n) c). clearbody w0. destruct (p_repeatCount p <? 4).
  - unfold mbe_moveMbeParms. change local_addr with (-1). destruct (mbe_synthesizeSpeechf o aout (-1) e e uvq t) as [[[[b s] e'] t']|w]; reflexivity.
  - unfold ambe_noise_reset. destruct (mbe_synthesizeComfortNoisef aout t) as [[b t']|w]; [|reflexivity]. cbn [bind]. rewrite init_ambe by exact WP. reflexivity.
Qed.
Lemma erasure_process : forall o a aout n d st uvq c0 cv t c p e, is_bits 49 d -> wf_parms (prev_of st) -> begin st = (c, p, e) -> wf_parms p -> wf_parms c -> kind2450 d n = Erasure ->
  mbe_processAmbe2450Dataf_internal o a aout n d st uvq c0 cv t =
  let m := erased (with_errors n (ambe_rate (p_errorRate p) n) c) p in
  '(b, t') <- mbe_synthesizeComfortNoisef aout t ;; Ok (b, status n [69], (m, m, m), t').
Proof.
  intros o a aout n d [[cur prev] enh] uvq c0 cv t c p e Hd W B WP WC HK. cbn [prev_of] in W. unfold mbe_processAmbe2450Dataf_internal. rewrite ensure_ok by exact W. cbn [bind]. rewrite B. cbn [bind]. rewrite entry_eq.
  destruct (kind_cases d n Hd) as [(T & N & E)|[(T & N & E)|(_ & _ & E)]]; [destruct (tone_hz (tone_id d)); congruence| |congruence].
  rewrite ambe2450_erasure by assumption. cbn [bind]. change (2 =? 2) with true. change (2 =? 0) with false. change (2 =? 7) with false. cbv iota. rewrite clear_eq, clear_set.
  assert (WW : wf_parms (with_errors n (ambe_rate (p_errorRate p) n) c)) by exact WC. set (w0 := with_errors n (ambe_rate (p_errorRate p) n) c) in *. clearbody w0.
  rewrite erasure_ok by assumption. cbn [bind]. destruct (mbe_synthesizeComfortNoisef aout t) as [[b t']|w]; reflexivity.
Qed.

(* ---- one step ---- *)
Lemma comfort_ok : forall buf t, length buf = 160%nat -> thread_ok t -> exists b t', mbe_synthesizeComfortNoisef buf t = Ok (b, t') /\ length b = 160%nat /\ thread_ok t' /\ t_rm0_valid t' = t_rm0_valid t.
Proof. intros buf t L T. rewrite comfort_frame by exact L. do 2 eexists. split; [reflexivity|]. split; [rewrite map_length, seq_length; reflexivity|]. split; [apply (tls_ok_java _ t), T|reflexivity]. Qed.
Lemma comfort_inv : forall buf t b t', length buf = 160%nat -> thread_ok t -> mbe_synthesizeComfortNoisef buf t = Ok (b, t') -> length b = 160%nat /\ thread_ok t' /\ t_rm0_valid t' = t_rm0_valid t.
Proof. intros buf t b t' L T H. destruct (comfort_ok buf t L T) as (b1 & t1 & E & Q). rewrite E in H. injection H as <- <-. exact Q. Qed.
Lemma spoken_of : forall m c', but_speech m c' -> spoken m (c', m, c').
Proof. intros m c' B. unfold spoken. cbn [prev_of enh_of cur_of]. unfold but_speech in B. rewrite B. fields. auto 10. Qed.
Lemma kept_of : forall p p1, same_bands p p1 -> p_errorRate p1 = p_errorRate p /\ p_repeat p1 = p_repeat p /\ p_repeatCount p1 = p_repeatCount p
  /\ p_mutingThreshold p1 = p_mutingThreshold p /\ p_noiseSeed p1 = p_noiseSeed p /\ p_errorCountTotal p1 = p_errorCountTotal p -> p_errorCount4 p1 = p_errorCount4 p -> p_previousUw p1 = p_previousUw p -> p_noiseOverlap p1 = p_noiseOverlap p -> p_amplitudeThreshold p1 = p_amplitudeThreshold p -> kept_model p (one_more p1).
Proof.
  intros p p1 S (E1 & E2 & E3 & E4 & E5 & E6) E7 E8 E9 E10. unfold kept_model, one_more. split; [exact S|]. fields. rewrite E1, E2, E3, E4, E5, E6, E7, E8, E9, E10. auto 13.
Qed.
Lemma fresh_of : forall L w0 g v n c p c1 p1, ambe_accepted L w0 g v (with_errors n (ambe_rate (p_errorRate p) n) c) p c1 p1 -> fresh_model L w0 g n c p (no_repeats c1).
Proof.
  intros L w0 g v n c p c1 p1 (AL & AW & AR & AG & _ & _ & _ & _ & EC & _). unfold fresh_model, no_repeats. fields. rewrite AL, AW, AG. unfold ambe_threshold. fields. rewrite EC. fields. auto 15.
Qed.
Lemma reset_room : forall T, p_amplitudeThreshold (enh_of start_ambe) <= Z.max 20480 T + 6000.
Proof. intros T. change (p_amplitudeThreshold (enh_of start_ambe)) with 20480. lia. Qed.
Lemma room_of : forall m st' T r, spoken m st' -> sane_state st' -> smoothing_Tm r (p_errorCountTotal m) T = Ok (p_amplitudeThreshold (cur_of st')) -> p_amplitudeThreshold (enh_of st') <= Z.max 20480 T + 6000.
Proof.
  intros m [[x y] z] T r (P & E & _) (_ & SM & _) H. cbn [prev_of enh_of cur_of] in *. subst. destruct SM as (_ & _ & _ & _ & TM & _). pose proof (Tm_bound _ _ _ _ TM H). lia.
Qed.
Lemma voice_rest_inv : forall o a aout need n L w0 g v c p c1 p1 enh uvq t b str st' t',
  ambe_accepted L w0 g v (with_errors n (ambe_rate (p_errorRate p) n) c) p c1 p1 -> 0 <= n <= 100 -> sane c -> sane p -> sane enh -> 9 <= L <= 56 -> pitch_in_range w0 -> thread_ok t -> length aout = 160%nat ->
  voice_rest o a aout need n c1 p1 enh uvq t = Ok (b, str, st', t') ->
  sane_state st' /\ thread_ok t' /\ length b = 160%nat /\ (t_rm0_valid t = false -> t_rm0_valid t' = false) /\ p_amplitudeThreshold (enh_of st') <= Z.max 20480 (p_amplitudeThreshold enh) + 6000 /\ voice_step need n L w0 g aout c p t b str st' /\
  (need = false \/ p_repeatCount p < 3 -> smoothing_Tm (p_errorRate (prev_of st')) (p_errorCountTotal (prev_of st')) (p_amplitudeThreshold enh) = Ok (p_amplitudeThreshold (cur_of st')) /\ t_rm0_valid t' = false).
Proof.
  intros o a aout need n L w0 g v c p c1 p1 enh uvq t b str st' t' AC Hn SC SP SE HL HW TH LA H.
  destruct (accepted_sane _ _ _ _ _ _ _ _ AC (sane_with_errors _ _ _ Hn SC) SP HL HW) as [S1 S2].
  pose proof (accepted_others _ _ _ _ _ _ _ _ AC) as OT. pose proof (accepted_bands _ _ _ _ _ _ _ _ AC) as SB. pose proof (fresh_of _ _ _ _ _ _ _ _ _ AC) as FR.
  assert (KE : kept_model p (one_more p1)). { destruct AC as (_ & _ & _ & _ & _ & _ & _ & _ & _ & _ & _ & EP). apply kept_of; [exact SB|exact OT|rewrite EP; reflexivity|rewrite EP; reflexivity|rewrite EP; reflexivity|rewrite EP; reflexivity]. }
  destruct OT as (O1 & O2 & O3 & O4 & O5 & O6).
  assert (RP : p_repeat p = p_repeatCount p) by apply SP. unfold voice_rest in H. rewrite O2, RP in H. unfold voice_step.
  assert (SPK : forall m, sane m -> forall r, '(b, st, t') <- ambe_speak o a aout m enh uvq t ;; Ok (b, r, st, t') = Ok (b, str, st', t') ->
     str = r /\ sane_state st' /\ thread_ok t' /\ length b = 160%nat /\ t_rm0_valid t' = false /\ prev_of st' = m /\ spoken m st' /\ smoothing_Tm (p_errorRate m) (p_errorCountTotal m) (p_amplitudeThreshold enh) = Ok (p_amplitudeThreshold (cur_of st'))).
  { intros m SM r HH. apply bind_inv in HH as ([[b0 s0] t0] & HS & HH). assert (Q : b0 = b /\ r = str /\ s0 = st' /\ t0 = t') by (injection HH as <- <- <- <-; auto). destruct Q as (-> & <- & -> & ->).
    destruct (speak_inv _ _ _ _ _ _ _ _ _ _ (proj1 SM) (proj1 SE) (proj1 (proj2 SM)) LA HS) as (c' & -> & B & _ & LB & _ & ST & _ & TV).
    destruct (speak_sane _ _ _ _ _ _ _ _ _ _ _ _ SM SE TH LA HS) as [SN TT]. split; [reflexivity|]. split; [split; [exact SN|split; [exact SM|exact SN]]|]. split; [exact TT|]. split; [exact LB|]. split; [exact TV|]. split; [reflexivity|]. split; [apply spoken_of, B|exact ST]. }
  destruct need; cbn [andb] in H.
  - destruct (Z.leb_spec 3 (p_repeatCount p)) as [G|G]; destruct (Z.ltb_spec (p_repeatCount p) 3) as [G'|G']; try lia.
    + apply bind_inv in H as ([b0 t0] & HC & H). assert (Q : b0 = b /\ status n [82; 77] = str /\ start_ambe = st' /\ t0 = t') by (injection H as <- <- <- <-; auto). destruct Q as (-> & <- & <- & ->).
      destruct (comfort_inv _ _ _ _ LA TH HC) as (LB & TT & TV). split; [apply sane_start_ambe|]. split; [exact TT|]. split; [exact LB|]. split; [congruence|]. split; [apply reset_room|]. split; [split; [reflexivity|]; split; [reflexivity|]; exists t'; exact HC|]. intros [X|X]; [discriminate|lia].
    + destruct (SPK (one_more p1)) with (r := status n [82]) as (-> & A1 & A2 & A3 & A4 & A5 & A6 & A7); [apply sane_one_more; [exact S2|lia]|exact H|].
      split; [exact A1|]. split; [exact A2|]. split; [exact A3|]. split; [auto|]. split; [exact (room_of _ _ _ _ A6 A1 A7)|]. rewrite A5. split; [split; [reflexivity|]; split; [exact KE|exact A6]|]. auto.
  - destruct (SPK (no_repeats c1)) with (r := status n []) as (-> & A1 & A2 & A3 & A4 & A5 & A6 & A7); [exact S1|exact H|].
    split; [exact A1|]. split; [exact A2|]. split; [exact A3|]. split; [auto|]. split; [exact (room_of _ _ _ _ A6 A1 A7)|]. rewrite A5. split; [split; [reflexivity|]; split; [exact FR|exact A6]|]. auto.
Qed.
Lemma respeak : forall o buf a e uvq t b s e' t', sane e -> thread_ok t -> length buf = 160%nat -> mbe_synthesizeSpeechf o buf a e e uvq t = Ok (b, s, e', t') ->
  sane s /\ thread_ok t' /\ length b = 160%nat /\ but_speech e s /\ smoothing_Tm (p_errorRate e) (p_errorCountTotal e) (p_amplitudeThreshold e) = Ok (p_amplitudeThreshold s).
Proof.
  intros o buf a e uvq t b s e' t' (WE & LE & PE & SE & TE & RE & RRE) TH LB H.
  pose proof (speech_threshold _ _ _ _ _ _ _ _ _ _ _ H) as ST. destruct (speech_effect _ _ _ _ _ _ _ _ _ _ _ WE WE H) as (B & _ & WS & _).
  destruct (speech_bounded _ _ _ _ _ _ _ _ _ _ _ LB H) as [L1 _].
  destruct (speech_total o buf a e e uvq t _ WE WE LE LE (pitch_ok _ PE) SE TH LB ST) as (b1 & s1 & e1 & t1 & E & Q1 & Q2). rewrite E in H. apply Ok4 in H as (-> & -> & -> & ->).
  split; [|split; [exact Q2|split; [exact L1|split; [exact B|exact ST]]]]. split; [exact WS|]. unfold but_speech in B. rewrite B. fields. split; [exact LE|]. split; [exact PE|]. split; [exact Q1|]. auto.
Qed.
(* a frame synthesised without enhancement does not create a handoff *)
Lemma speech_handoff : forall o buf a cur prev uvq t b c p t', wf_parms cur -> length buf = 160%nat -> mbe_synthesizeSpeechf o buf a cur prev uvq t = Ok (b, c, p, t') -> t_rm0_valid t = false -> t_rm0_valid t' = false.
Proof.
  intros o buf a cur prev uvq t b c p t' WC LB H T. apply speech_inv in H as (c3 & t3 & HA & HS). pose proof (smoothing_but _ _ _ _ _ _ _ HA) as BS. pose proof (smoothing_tls _ _ _ _ _ _ _ HA) as TL.
  assert (T3 : t_rm0_valid t3 = false) by (rewrite TL; destruct (pending t a); [reflexivity|exact T]).
  destruct HS as [(_ & _ & _ & HC)|(_ & F)].
  - rewrite comfort_frame in HC by exact LB. apply (f_equal (fun r => match r with Ok (_, x) => t_rm0_valid x | UB _ => true end)) in HC. unfold with_java in HC. cbn [t_rm0_valid] in HC. congruence.
  - destruct F as (noise & seed & ov & nu & x & y & HN & _). apply noise_effect in HN as (_ & _ & HN); [rewrite HN; exact T3|]. rewrite BS. destruct WC as (_ & _ & _ & _ & _ & _ & WO). exact WO.
Qed.
Lemma tone_frame_length : forall o hz p1 p2 f ad, length (tone_frame o hz p1 p2 f ad) = 160%nat.
Proof. intros. unfold tone_frame. rewrite map_length, seq_length. reflexivity. Qed.
Lemma sane_phases : forall x y m, sane m -> sane (set_un x (set_swn y m)).
Proof. intros x y m (A1 & A2 & A3 & A4 & A5 & A6 & A7). unfold sane, wf_parms in *. fields. tauto. Qed.
Definition step_goal (o : oracle) (cl : ambe_call) (c p e : parms) (t : tls) (b : list f32) (str : list Z) (st' : dstate) (t' : tls) : Prop :=
  sane_state st' /\ thread_ok t' /\ length b = 160%nat /\ (t_rm0_valid t = false -> t_rm0_valid t' = false) /\ p_amplitudeThreshold (enh_of st') <= Z.max 20480 (p_amplitudeThreshold e) + 6000 /\ step2450 o cl c p e t b str st'.
Lemma step_voice : forall o a cl st t b str st' t' c p e, ambe_ok cl -> sane_state st -> wf_parms (prev_of st) -> sane c -> sane p -> sane e -> thread_ok t -> do2450 o a cl st t = Ok (b, str, st', t') -> begin st = (c, p, e) ->
  kind_of cl = Voice -> step_goal o cl c p e t b str st' t'.
Proof.
  intros o a cl st t b str st' t' c p e (Hd & Hn & LB) SS WP SC SP SE TH H BG K. unfold do2450 in H. unfold step_goal, step2450. rewrite K. unfold kind_of in K. cbv zeta.
  assert (SW : sane (with_errors (ac_errors cl) (ambe_rate (p_errorRate p) (ac_errors cl)) c)) by (apply sane_with_errors; assumption).
  destruct (kind_cases (ac_bits cl) (ac_errors cl) Hd) as [(T & N & E)|[(T & N & E)|(NT & NE & E)]]; [destruct (tone_hz (tone_id (ac_bits cl))); congruence|congruence|].
  destruct (mbe_decodeAmbe2450ParmsInternal o (ac_bits cl) (with_errors (ac_errors cl) (ambe_rate (p_errorRate p) (ac_errors cl)) c) p (ac_errors cl)) as [[[bad c1] p1]|w] eqn:HD.
  - destruct (ambe2450_accepted _ _ _ _ _ _ _ _ Hd (proj1 (proj1 SW)) NT NE HD) as [-> AC].
    assert (HW : pitch_in_range (w0_2450 (pitch2450 (ac_bits cl)))) by (apply w0_range; pose proof (pitch2450_range _ Hd); unfold erasure2450 in NE; lia).
    pose proof (harmonics2450_bits _ Hd NE) as HL. destruct (accepted_sane _ _ _ _ _ _ _ _ AC SW SP HL HW) as [_ S2].
    assert (RR : p_repeat p1 = p_repeatCount p1 /\ 0 <= p_repeatCount p1 <= 4) by (split; apply S2).
    rewrite (voice2450 _ _ _ _ _ _ _ _ _ _ _ _ _ _ _ WP BG HD (proj1 S2)) in H by lia.
    destruct (voice_rest_inv _ _ _ _ _ _ _ _ _ _ _ _ _ _ _ _ _ _ _ _ AC Hn SC SP SE HL HW TH LB H) as (A1 & A2 & A3 & A4 & A5 & A6 & _). auto 6.
  - exfalso. destruct st as [[x y] z]. unfold mbe_processAmbe2450Dataf_internal in H. cbn [prev_of] in WP. rewrite ensure_ok in H by exact WP. cbn [bind] in H. rewrite BG in H. cbn [bind] in H. rewrite entry_eq, HD in H. discriminate H.
Qed.
Lemma step_erasure : forall o a cl st t b str st' t' c p e, ambe_ok cl -> wf_parms (prev_of st) -> sane c -> sane p -> sane e -> thread_ok t -> do2450 o a cl st t = Ok (b, str, st', t') -> begin st = (c, p, e) ->
  kind_of cl = Erasure -> step_goal o cl c p e t b str st' t'.
Proof.
  intros o a cl st t b str st' t' c p e (Hd & Hn & LB) WP SC SP SE TH H BG K. unfold do2450 in H. unfold step_goal, step2450. rewrite K. unfold kind_of in K. cbv zeta.
  rewrite (erasure_process _ _ _ _ _ _ _ _ _ _ _ _ _ Hd WP BG (proj1 SP) (proj1 SC) K) in H. cbv zeta in H. apply bind_inv in H as ([b0 t0] & HC & H).
  apply Ok4 in H as (-> & <- & <- & ->). destruct (comfort_inv _ _ _ _ LB TH HC) as (L1 & T1 & V1).
  assert (SW : sane (with_errors (ac_errors cl) (ambe_rate (p_errorRate p) (ac_errors cl)) c)) by (apply sane_with_errors; assumption).
  pose proof (sane_erased _ _ SW SP) as SX. assert (AT : p_amplitudeThreshold (erased (with_errors (ac_errors cl) (ambe_rate (p_errorRate p) (ac_errors cl)) c) p) = 20480) by reflexivity. set (m := erased _ p) in *. clearbody m. split; [split; [exact SX|split; exact SX]|]. split; [exact T1|]. split; [exact L1|]. split; [congruence|]. split; [cbn [enh_of]; lia|]. split; [reflexivity|]. split; [exists t'; exact HC|reflexivity].
Qed.
Lemma step_tone : forall o a cl st t b str st' t' c p e hz, ambe_ok cl -> wf_parms (prev_of st) -> sane c -> sane p -> sane e -> thread_ok t -> do2450 o a cl st t = Ok (b, str, st', t') -> begin st = (c, p, e) ->
  kind_of cl = Tone hz -> step_goal o cl c p e t b str st' t'.
Proof.
  intros o a cl st t b str st' t' c p e hz (Hd & Hn & LB) WP SC SP SE TH H BG K. unfold do2450 in H. unfold step_goal, step2450. rewrite K. unfold kind_of in K. cbv zeta.
  rewrite (tone_process _ _ _ _ _ _ _ _ _ _ _ _ _ _ Hd LB WP BG K) in H. apply Ok4 in H as (EB & ES & ET & <-). symmetry in EB, ES, ET.
  assert (LL : length b = 160%nat) by (rewrite EB; apply heard_length).
  assert (SW : sane (with_errors (ac_errors cl) (ambe_rate (p_errorRate p) (ac_errors cl)) c)) by (apply sane_with_errors; assumption).
  pose proof (sane_no_repeats _ SW) as SX. clear SW. set (m := no_repeats _) in *. clearbody m.
  split; [|split; [exact TH|]; split; [exact LL|]; split; [intros X; exact X|]; split; [rewrite ET; cbn [enh_of]; lia|]; split; [exact ES|]; split; [exact EB|exact ET]].
  rewrite ET. split; [unfold tone_turned; destruct (o_tones o); [apply sane_phases|]; exact SX|split; [exact SP|exact SE]].
Qed.
Lemma step_unknown : forall o a cl st t b str st' t' c p e, ambe_ok cl -> wf_parms (prev_of st) -> sane c -> sane p -> sane e -> thread_ok t -> do2450 o a cl st t = Ok (b, str, st', t') -> begin st = (c, p, e) ->
  kind_of cl = UnknownTone -> step_goal o cl c p e t b str st' t'.
Proof.
  intros o a cl st t b str st' t' c p e (Hd & Hn & LB) WP SC SP SE TH H BG K. unfold do2450 in H. unfold step_goal, step2450. rewrite K. unfold kind_of in K. cbv zeta.
  rewrite (unknown_process _ _ _ _ _ _ _ _ _ _ _ _ _ Hd WP BG (proj1 SP) K) in H.
  assert (SW : sane (with_errors (ac_errors cl) (ambe_rate (p_errorRate p) (ac_errors cl)) c)) by (apply sane_with_errors; assumption).
  pose proof (sane_no_repeats _ SW) as SX. clear SW. set (m := no_repeats _) in *. clearbody m. destruct (p_repeatCount p <? 4).
  - apply bind_inv in H as ([[[b0 s0] e0] t0] & HS & H). apply Ok4 in H as (-> & <- & <- & ->). destruct (respeak _ _ _ _ _ _ _ _ _ _ SE TH LB HS) as (Q1 & Q2 & Q3 & Q4 & Q5).
    split; [split; [exact SX|split; [exact SP|exact Q1]]|]. split; [exact Q2|]. split; [exact Q3|].
    split; [intros TV; exact (speech_handoff _ _ _ _ _ _ _ _ _ _ _ (proj1 SE) LB HS TV)|]. split; [assert (TB : 0 <= p_errorCountTotal e <= 100) by apply SE; pose proof (Tm_bound _ _ _ _ TB Q5); cbn [enh_of]; lia|]. split; [reflexivity|]. cbn [prev_of cur_of enh_of]. unfold but_speech in Q4. rewrite Q4. fields. auto 10.
  - apply bind_inv in H as ([b0 t0] & HC & H). apply Ok4 in H as (-> & <- & <- & ->). destruct (comfort_inv _ _ _ _ LB TH HC) as (L1 & T1 & V1).
    split; [apply sane_start_ambe|]. split; [exact T1|]. split; [exact L1|]. split; [congruence|]. split; [apply reset_room|]. split; [reflexivity|]. split; [reflexivity|exists t'; exact HC].
Qed.
Lemma step2450_ok : forall o a cl st t b str st' t' c p e, ambe_ok cl -> sane_state st -> thread_ok t -> do2450 o a cl st t = Ok (b, str, st', t') -> begin st = (c, p, e) ->
  step_goal o cl c p e t b str st' t'.
Proof.
  intros o a cl st t b str st' t' c p e HC SS TH H BG.
  assert (WP : wf_parms (prev_of st)) by (destruct st as [[x y] z]; destruct SS as (_ & SP & _); apply SP).
  pose proof (sane_begin st SS) as SB. rewrite BG in SB. destruct SB as (SC & SP & SE).
  destruct (kind_of cl) eqn:K; [eapply step_voice|eapply step_erasure|eapply step_tone|eapply step_unknown]; eassumption.
Qed.

(* ---- definedness ---- *)
Lemma voice_rest_total : forall o a aout need n L w0 g v c p c1 p1 enh uvq t,
  ambe_accepted L w0 g v (with_errors n (ambe_rate (p_errorRate p) n) c) p c1 p1 -> 0 <= n <= 100 -> sane c -> sane p -> sane enh -> 9 <= L <= 56 -> pitch_in_range w0 -> thread_ok t -> length aout = 160%nat ->
  threshold_room enh -> exists b str st' t', voice_rest o a aout need n c1 p1 enh uvq t = Ok (b, str, st', t').
Proof.
  intros o a aout need n L w0 g v c p c1 p1 enh uvq t AC Hn SC SP SE HL HW TH LA TR.
  destruct (accepted_sane _ _ _ _ _ _ _ _ AC (sane_with_errors _ _ _ Hn SC) SP HL HW) as [S1 S2]. unfold voice_rest.
  destruct (need && (3 <=? p_repeat p1)) eqn:E.
  - rewrite comfort_frame by exact LA. cbn [bind]. eauto.
  - destruct (speak_total o a aout (if need then one_more p1 else no_repeats c1) enh uvq t) as (b & c' & t' & -> & _); [|exact SE|exact TR|exact TH|exact LA|cbn [bind]; eauto].
    destruct need; [|exact S1]. apply sane_one_more; [exact S2|]. cbn in E. assert (p_repeat p1 = p_repeatCount p1) by apply S2. lia.
Qed.
Lemma total2450 : forall o a cl st t c p e, ambe_ok cl -> sane_state st -> thread_ok t -> begin st = (c, p, e) -> threshold_room e ->
  (kind_of cl = Voice -> usable_history (harmonics2450 (pitch2450 (ac_bits cl))) p) -> exists b str st' t', do2450 o a cl st t = Ok (b, str, st', t').
Proof.
  intros o a cl st t c p e (Hd & Hn & LB) SS TH BG TR HU. unfold do2450.
  assert (WP : wf_parms (prev_of st)) by (destruct st as [[x y] z]; destruct SS as (_ & SP & _); apply SP).
  pose proof (sane_begin st SS) as SB. rewrite BG in SB. destruct SB as (SC & SP & SE).
  assert (SW : sane (with_errors (ac_errors cl) (ambe_rate (p_errorRate p) (ac_errors cl)) c)) by (apply sane_with_errors; assumption).
  unfold kind_of in *. destruct (kind2450 (ac_bits cl) (ac_errors cl)) as [| |hz|] eqn:K.
  - destruct (kind_cases (ac_bits cl) (ac_errors cl) Hd) as [(T & N & E)|[(T & N & E)|(NT & NE & E)]]; [destruct (tone_hz (tone_id (ac_bits cl))); congruence|congruence|].
    destruct (ambe2450_total o (ac_bits cl) (with_errors (ac_errors cl) (ambe_rate (p_errorRate p) (ac_errors cl)) c) p (ac_errors cl) Hd (proj1 SW) NT NE (usable_prev_ok _ _ (HU eq_refl))) as (bad & c1 & p1 & HD).
    destruct (ambe2450_accepted _ _ _ _ _ _ _ _ Hd (proj1 (proj1 SW)) NT NE HD) as [-> AC].
    assert (HW : pitch_in_range (w0_2450 (pitch2450 (ac_bits cl)))) by (apply w0_range; pose proof (pitch2450_range _ Hd); unfold erasure2450 in NE; lia).
    pose proof (harmonics2450_bits _ Hd NE) as HL. destruct (accepted_sane _ _ _ _ _ _ _ _ AC SW SP HL HW) as [_ S2].
    assert (RR : p_repeat p1 = p_repeatCount p1 /\ 0 <= p_repeatCount p1 <= 4) by (split; apply S2).
    rewrite (voice2450 _ _ _ _ _ _ _ _ _ _ _ _ _ _ _ WP BG HD (proj1 S2)) by lia. exact (voice_rest_total _ _ _ _ _ _ _ _ _ _ _ _ _ _ _ _ AC Hn SC SP SE HL HW TH LB TR).
  - rewrite (erasure_process _ _ _ _ _ _ _ _ _ _ _ _ _ Hd WP BG (proj1 SP) (proj1 SC) K). cbv zeta. rewrite comfort_frame by exact LB. cbn [bind]. eauto.
  - rewrite (tone_process _ _ _ _ _ _ _ _ _ _ _ _ _ _ Hd LB WP BG K). eauto.
  - rewrite (unknown_process _ _ _ _ _ _ _ _ _ _ _ _ _ Hd WP BG (proj1 SP) K). destruct (p_repeatCount p <? 4).
    + destruct (Tm_total (p_errorRate e) (p_errorCountTotal e) (p_amplitudeThreshold e)) as (T & HT & _); [apply SE|exact TR|].
      destruct SE as (WE & LE & PE & SDE & TE & RE & RRE).
      destruct (speech_total o (ac_buf cl) (-1) e e (ac_uv cl) t T WE WE LE LE (pitch_ok _ PE) SDE TH LB HT) as (b1 & s1 & e1 & t1 & -> & _). cbn [bind]. eauto.
    + rewrite comfort_frame by exact LB. cbn [bind]. eauto.
Qed.

(* ---- 2400 ---- *)
Lemma voice2400_eq : forall o a aout errs n d st uvq t c p e c1 p1, wf_parms (prev_of st) -> begin st = (c, p, e) ->
  mbe_decodeAmbe2400Parms o d (with_errors n (ambe_rate (p_errorRate p) n) c) p = Ok (0, c1, p1) -> wf_parms p1 -> 0 <= p_repeat p1 <= 1000 -> 0 <= p_repeatCount p1 <= 1000 ->
  mbe_processAmbe2400Dataf o a aout errs n d st uvq t = voice_rest o a aout (3 <? n) n c1 p1 e uvq t.
Proof.
  intros o a aout errs n d [[cur prev] enh] uvq t c p e c1 p1 W B HD WP HR HC. cbn [prev_of] in W. unfold mbe_processAmbe2400Dataf. rewrite ensure_ok by exact W. cbn [bind]. rewrite B. cbn [bind].
  rewrite entry_eq, HD. cbn [bind]. change (0 =? 2) with false. change (0 =? 3) with false. change ((7 <=? 0) && (0 <=? 122)) with false. change (0 =? 0) with true. cbn [andb]. cbv iota. unfold voice_rest.
  destruct (3 <? n).
  - rewrite repeat_last_ok by assumption. cbn [bind andb]. replace (p_repeat (one_more p1) <=? 3) with (negb (3 <=? p_repeat p1)) by (unfold one_more; fields; destruct (Z.leb_spec 3 (p_repeat p1)), (Z.leb_spec (p_repeat p1 + 1) 3); cbn; lia).
    destruct (3 <=? p_repeat p1); cbn [negb].
    + unfold ambe_noise_reset. destruct (mbe_synthesizeComfortNoisef aout t) as [[b t']|w]; [|reflexivity]. cbn [bind]. rewrite init_ambe by exact WP. reflexivity.
    + destruct (ambe_speak o a aout (one_more p1) e uvq t) as [[[b s] t']|w]; reflexivity.
  - cbn [bind andb]. change (p_repeat (clear_repeat c1) <=? 3) with true. cbv iota. rewrite clear_eq. destruct (ambe_speak o a aout (no_repeats c1) e uvq t) as [[[b s] t']|w]; reflexivity.
Qed.
(* comfort noise overwrites the whole buffer *)
Lemma comfort_over : forall b b' t, length b = 160%nat -> length b' = 160%nat -> mbe_synthesizeComfortNoisef b t = mbe_synthesizeComfortNoisef b' t.
Proof. intros b b' t L L'. rewrite !comfort_frame by assumption. reflexivity. Qed.
Lemma single_hz : forall id, 5 <= id <= 122 -> tone_hz id = Some (3125 * id, 0).
Proof. intros id H. unfold tone_hz. replace ((5 <=? id) && (id <=? 122)) with true by lia. reflexivity. Qed.
Lemma wf_phases : forall x y r m, wf_parms m -> wf_parms (set_un x (set_swn y (set_repeat r m))).
Proof. intros x y r m H. exact H. Qed.
Lemma tone2400_eq : forall o a cl st t c p e, ambe_ok cl -> sane_state st -> begin st = (c, p, e) -> voice2400 cl = false ->
  do2400 o a cl st t = ('(b, t') <- mbe_synthesizeComfortNoisef (ac_buf cl) t ;; Ok (b, status (ac_errors cl) (marker2400 cl), start_ambe, t')).
Proof.
  intros o a cl st t c p e (Hd & Hn & LB) SS BG HV. unfold do2400, voice2400, marker2400 in *. cbv zeta.
  assert (WP : wf_parms (prev_of st)) by (destruct st as [[x y] z]; destruct SS as (_ & SP & _); apply SP).
  pose proof (sane_begin st SS) as SB. rewrite BG in SB. destruct SB as (SC & SP & SE). assert (HB : 126 <= pitch2400 (ac_bits cl)) by lia. clear HV.
  assert (SW : sane (with_errors (ac_errors cl) (ambe_rate (p_errorRate p) (ac_errors cl)) c)) by (apply sane_with_errors; assumption).
  destruct st as [[x y] z]. unfold mbe_processAmbe2400Dataf. cbn [prev_of] in WP. rewrite ensure_ok by exact WP. cbn [bind]. rewrite BG. cbn [bind]. rewrite entry_eq.
  set (W := with_errors _ _ c) in *. clearbody W. set (id := tone2400 (ac_bits cl)) in *.
  assert (RST : forall b c1 p1 mark, length b = 160%nat -> wf_parms p1 -> ('(aout, mark, st, t) <- ('(aout, st, t) <- ambe_noise_reset b (c1, p1, e) t ;; Ok (aout, mark, st, t)) ;; Ok (aout, eq_run (ac_errors cl) ++ mark ++ [0], st, t))
     = ('(b, t') <- mbe_synthesizeComfortNoisef (ac_buf cl) t ;; Ok (b, status (ac_errors cl) mark, start_ambe, t'))).
  { intros b c1 p1 mark Lb W1. unfold ambe_noise_reset. rewrite (comfort_over b (ac_buf cl)) by assumption. destruct (mbe_synthesizeComfortNoisef (ac_buf cl) t) as [[b' t']|w]; [|reflexivity]. cbn [bind]. rewrite init_ambe by exact W1. reflexivity. }
  destruct ((5 <=? id) && (id <=? 122)) eqn:E1.
  - rewrite ambe2400_tone by (try assumption; fold id; lia). fold id. cbn [bind]. replace (id =? 2) with false by lia. replace (id =? 3) with false by lia. replace (id =? 0) with false by lia. replace (id <=? 122) with true by lia. rewrite andb_true_r. cbv iota.
    destruct ((7 <=? id) && (ac_c0 cl <? 2) && (ac_errors cl <? 3)).
    + destruct (o_tones o) eqn:ETO; [|rewrite dstar_off by assumption; cbn [bind]; apply RST; [apply repeat_length|unfold mbe_moveMbeParms; apply SW]].
      rewrite (dstar_ok o (ac_buf cl) (set_repeat (p_repeat p) W) id (3125 * id, 0)) by (try lia; try exact LB; try exact ETO; apply single_hz; lia). cbn [bind]. apply RST; [apply tone_frame_length|].
      unfold mbe_moveMbeParms. apply wf_phases, SW.
    + destruct (3 <? ac_errors cl).
      * assert (RR : p_repeat p = p_repeatCount p /\ 0 <= p_repeatCount p <= 4) by (split; apply SP). rewrite repeat_last_ok by lia. cbn [bind]. apply RST; [exact LB|apply SP].
      * cbn [bind]. apply RST; [exact LB|apply SP].
  - destruct ((128 <=? id) && (id <=? 163)) eqn:E2.
    + rewrite ambe2400_dual by (try assumption; fold id; lia). cbn [bind]. change (3 =? 2) with false. change (3 =? 3) with true. change (3 =? 0) with false. cbv iota. cbn [bind]. apply RST; [exact LB|apply SP].
    + destruct (ambe2400_silence o (ac_bits cl) W p Hd (proj1 (proj1 SW)) HB) as (V & _ & _ & _ & ->); [fold id; lia|fold id; lia|].
      cbn [bind]. change (3 =? 2) with false. change (3 =? 3) with true. change (3 =? 0) with false. cbv iota. cbn [bind]. apply RST; [exact LB|apply SP].
Qed.

Definition step_goal2400 (o : oracle) (cl : ambe_call) (c p e : parms) (t : tls) (b : list f32) (str : list Z) (st' : dstate) (t' : tls) : Prop :=
  sane_state st' /\ thread_ok t' /\ length b = 160%nat /\ (t_rm0_valid t = false -> t_rm0_valid t' = false) /\ p_amplitudeThreshold (enh_of st') <= Z.max 20480 (p_amplitudeThreshold e) + 6000 /\ step2400 o cl c p e t b str st'.
Lemma step2400_ok : forall o a cl st t b str st' t' c p e, ambe_ok cl -> sane_state st -> thread_ok t -> (voice2400 cl = true -> exp2_close o (exponent2400 (pitch2400 (ac_bits cl)))) ->
  do2400 o a cl st t = Ok (b, str, st', t') -> begin st = (c, p, e) -> step_goal2400 o cl c p e t b str st' t'.
Proof.
  intros o a cl st t b str st' t' c p e HC SS TH HX H BG. unfold step_goal2400, step2400. cbv zeta. destruct (voice2400 cl) eqn:V.
  - destruct HC as (Hd & Hn & LB). unfold do2400 in H. assert (HB : pitch2400 (ac_bits cl) < 126) by (unfold voice2400 in V; lia). specialize (HX eq_refl).
    assert (WP : wf_parms (prev_of st)) by (destruct st as [[x y] z]; destruct SS as (_ & SP & _); apply SP).
    pose proof (sane_begin st SS) as SB. rewrite BG in SB. destruct SB as (SC & SP & SE).
    assert (SW : sane (with_errors (ac_errors cl) (ambe_rate (p_errorRate p) (ac_errors cl)) c)) by (apply sane_with_errors; assumption).
    destruct (mbe_decodeAmbe2400Parms o (ac_bits cl) (with_errors (ac_errors cl) (ambe_rate (p_errorRate p) (ac_errors cl)) c) p) as [[[bad c1] p1]|w] eqn:HD.
    + destruct (ambe2400_accepted _ _ _ _ _ _ _ Hd (proj1 (proj1 SW)) HB HX HD) as [-> AC].
      assert (HW : pitch_in_range (radians (exp2f o (exponent2400 (pitch2400 (ac_bits cl)))))) by (apply f0_range; [pose proof (pitch2400_range _ Hd); lia|exact HX]).
      pose proof (harmonics2400_range _ Hd HB) as HL. destruct (accepted_sane _ _ _ _ _ _ _ _ AC SW SP HL HW) as [_ S2].
      assert (RR : p_repeat p1 = p_repeatCount p1 /\ 0 <= p_repeatCount p1 <= 4) by (split; apply S2).
      rewrite (voice2400_eq _ _ _ _ _ _ _ _ _ _ _ _ _ _ WP BG HD (proj1 S2)) in H by lia.
      destruct (voice_rest_inv _ _ _ _ _ _ _ _ _ _ _ _ _ _ _ _ _ _ _ _ AC Hn SC SP SE HL HW TH LB H) as (A1 & A2 & A3 & A4 & A5 & A6 & _). auto 6.
    + exfalso. destruct st as [[x y] z]. unfold mbe_processAmbe2400Dataf in H. cbn [prev_of] in WP. rewrite ensure_ok in H by exact WP. cbn [bind] in H. rewrite BG in H. cbn [bind] in H. rewrite entry_eq, HD in H. discriminate H.
  - rewrite (tone2400_eq _ _ _ _ _ _ _ _ HC SS BG V) in H. destruct HC as (Hd & Hn & LB). apply bind_inv in H as ([b0 t0] & HN & H). apply Ok4 in H as (-> & <- & <- & ->). destruct (comfort_inv _ _ _ _ LB TH HN) as (L1 & T1 & V1).
    split; [apply sane_start_ambe|]. split; [exact T1|]. split; [exact L1|]. split; [congruence|]. split; [apply reset_room|]. split; [reflexivity|]. split; [exists t'; exact HN|reflexivity].
Qed.
Lemma total2400 : forall o a cl st t c p e, ambe_ok cl -> sane_state st -> thread_ok t -> begin st = (c, p, e) -> threshold_room e ->
  (voice2400 cl = true -> exp2_close o (exponent2400 (pitch2400 (ac_bits cl))) /\ usable_history (harmonics2400 (pitch2400 (ac_bits cl))) p) -> exists b str st' t', do2400 o a cl st t = Ok (b, str, st', t').
Proof.
  intros o a cl st t c p e HC SS TH BG TR HU. destruct (voice2400 cl) eqn:V.
  - destruct HC as (Hd & Hn & LB). unfold do2400. assert (HB : pitch2400 (ac_bits cl) < 126) by (unfold voice2400 in V; lia). destruct (HU eq_refl) as [HX U].
    assert (WP : wf_parms (prev_of st)) by (destruct st as [[x y] z]; destruct SS as (_ & SP & _); apply SP).
    pose proof (sane_begin st SS) as SB. rewrite BG in SB. destruct SB as (SC & SP & SE).
    assert (SW : sane (with_errors (ac_errors cl) (ambe_rate (p_errorRate p) (ac_errors cl)) c)) by (apply sane_with_errors; assumption).
    destruct (ambe2400_total o (ac_bits cl) (with_errors (ac_errors cl) (ambe_rate (p_errorRate p) (ac_errors cl)) c) p Hd (proj1 SW) HB HX (usable_prev_ok _ _ U)) as (bad & c1 & p1 & HD).
    destruct (ambe2400_accepted _ _ _ _ _ _ _ Hd (proj1 (proj1 SW)) HB HX HD) as [-> AC].
    assert (HW : pitch_in_range (radians (exp2f o (exponent2400 (pitch2400 (ac_bits cl)))))) by (apply f0_range; [pose proof (pitch2400_range _ Hd); lia|exact HX]).
    pose proof (harmonics2400_range _ Hd HB) as HL. destruct (accepted_sane _ _ _ _ _ _ _ _ AC SW SP HL HW) as [_ S2].
    assert (RR : p_repeat p1 = p_repeatCount p1 /\ 0 <= p_repeatCount p1 <= 4) by (split; apply S2).
    rewrite (voice2400_eq _ _ _ _ _ _ _ _ _ _ _ _ _ _ WP BG HD (proj1 S2)) by lia. exact (voice_rest_total _ _ _ _ _ _ _ _ _ _ _ _ _ _ _ _ AC Hn SC SP SE HL HW TH LB TR).
  - rewrite (tone2400_eq _ _ _ _ _ _ _ _ HC SS BG V). destruct HC as (Hd & Hn & LB). rewrite comfort_frame by exact LB. cbn [bind]. eauto.
Qed.
