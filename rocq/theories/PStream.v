(* Streams of IMBE frames: counters, definedness, and the two ways a stream leaves the defined behaviour. *)
From Coq Require Import ZArith List Bool Lia Reals Lra.
From Verif Require Import Res F32 MFrame MParms MAdaptive MUnvoiced MSynth MImbe MAmbe SpecEcc SpecFrame SpecState SpecAdaptive SpecGen SpecOut SpecWola SpecImbe SpecEnh SpecMachine
  PBase PRun PLoop PState PFloat PFloat2 PArr PAdapt PGen POut PWola PSpeech PConv PImbe PEnh PNyq PMachine.
Import ListNotations.
Local Open Scope Z_scope.

Lemma next_count_range : forall n c, 0 <= c <= 4 -> 0 <= next_count n c <= 4.
Proof. intros [|] c H; unfold next_count; [destruct (Z.ltb_spec c 4)|]; lia. Qed.
Lemma imbe_stream_counts : forall o a cs st t r st' t', Forall call_ok cs -> sane_state st -> thread_ok t -> imbe_stream o a cs st t = Ok (r, st', t') ->
  sane_state st' /\ thread_ok t' /\ p_repeatCount (prev_of st') = count_after (p_repeatCount (prev_of st)) (map snd r) /\ length r = length cs.
Proof.
  induction cs as [|c cs IH]; intros st t r st' t' HF SS TH H; cbn [imbe_stream] in H.
  - injection H as <- <- <-. auto.
  - inversion HF as [|x xs Hc HF']; subst. apply bind_inv in H as ([[[b s] st1] t1] & H1 & H). apply bind_inv in H as ([[r1 st2] t2] & H2 & H).
    injection H as <- <- <-. destruct (imbe_step _ _ _ _ _ _ _ _ _ Hc SS TH H1) as (S1 & T1 & C1 & _ & _ & _ & _ & _ & _ & _ & _ & _ & M1 & _).
    destruct (IH _ _ _ _ _ HF' S1 T1 H2) as (S2 & T2 & C2 & L2). split; [exact S2|]. split; [exact T2|]. split; [|cbn [length]; congruence].
    rewrite C2, C1. unfold count_after. cbn [map fold_left snd]. rewrite M1. reflexivity.
Qed.
Lemma sane_counts : forall st, sane_state st -> 0 <= p_repeatCount (prev_of st) <= 4.
Proof. intros [[c p] e] (_ & S & _). apply S. Qed.
Lemma count_cycle : forall strs c, 0 <= c <= 4 -> Forall (fun s => marked 82 s = true) strs -> count_after c strs = (c + Z.of_nat (length strs)) mod 5.
Proof.
  induction strs as [|s strs IH]; intros c Hc HF.
  - cbn. rewrite Z.add_0_r. symmetry. apply Z.mod_small. lia.
  - inversion HF as [|x xs H1 HF']; subst. unfold count_after in *. cbn [fold_left]. rewrite H1, IH; [|apply next_count_range; exact Hc|exact HF'].
    cbn [length]. unfold next_count. destruct (Z.ltb_spec c 4).
    + f_equal. lia.
    + replace c with 4 by lia. rewrite Nat2Z.inj_succ. replace (4 + Z.succ (Z.of_nat (length strs))) with (0 + Z.of_nat (length strs) + 1 * 5) by lia. rewrite Z_mod_plus_full. reflexivity.
Qed.
Lemma imbe_stream_cycle : forall o a cs st t r st' t', Forall call_ok cs -> sane_state st -> thread_ok t -> imbe_stream o a cs st t = Ok (r, st', t') ->
  Forall (fun x => marked 82 (snd x) = true) r -> p_repeatCount (prev_of st') = (p_repeatCount (prev_of st) + Z.of_nat (length cs)) mod 5.
Proof.
  intros o a cs st t r st' t' HF SS TH H HR. destruct (imbe_stream_counts _ _ _ _ _ _ _ _ HF SS TH H) as (_ & _ & C & L).
  rewrite C, count_cycle; [rewrite map_length, L; reflexivity|apply sane_counts, SS|]. apply Forall_map. exact HR.
Qed.

(* ---- muting ---- *)
Lemma imbe_muted_eq : forall m, p_mutingThreshold m = flit 875 10000 -> speech_muted m = (4 <=? p_repeatCount m) || fgt (p_errorRate m) (p_mutingThreshold m).
Proof.
  intros m H. unfold speech_muted, mbe_isMaxFrameRepeat, mbe_requiresMuting. rewrite H.
  replace (fgt (fabs (fsub (flit 875 10000) MUTING_AMBE)) f_1em6) with true by (vm_compute; reflexivity). reflexivity.
Qed.
Lemma imbe_noise : forall o a c st t b str st' t', call_ok c -> sane_state st -> thread_ok t -> imbe_threshold st -> imbe_do o a c st t = Ok (b, str, st', t') ->
  imbe_threshold st' /\ (marked 77 str = true -> exists t1, mbe_synthesizeComfortNoisef (ic_buf c) t = Ok (b, t1)).
Proof.
  intros o a c st t b str st' t' Hc SS TH IT H. destruct (imbe_step _ _ _ _ _ _ _ _ _ Hc SS TH H) as (_ & _ & _ & M & _ & _ & _ & _ & _ & _ & _ & _ & _ & M77 & HN & _).
  assert (I2 : imbe_threshold st'). { unfold imbe_threshold in *. rewrite M, IT. now destruct (_ && _). }
  split; [exact I2|]. intros E. apply HN. rewrite imbe_muted_eq by exact I2. rewrite <- M77. exact E.
Qed.

(* ---- definedness of streams ---- *)
Lemma harmonics_55 : forallb (fun b => imbe_harmonics b <=? 55) (zrange 204) = true.
Proof. vm_compute. reflexivity. Qed.
Lemma usable_55 : forall L m, sane m -> p_L m <= 55 -> usable_history L m.
Proof. intros L m S H. split; [apply S|]. left. destruct S as (_ & S & _). lia. Qed.
Lemma imbe_stream_total : forall o a cs st t, Forall call_ok cs -> Forall few_harmonics cs -> sane_state st -> thread_ok t -> p_L (prev_of st) <= 55 ->
  Z.max 20480 (p_amplitudeThreshold (enh_of st)) + 6000 * Z.of_nat (length cs) <= 2147483647 ->
  exists r st' t', imbe_stream o a cs st t = Ok (r, st', t').
Proof.
  induction cs as [|c cs IH]; intros st t HF HL SS TH PL HT; cbn [imbe_stream]; [eauto|].
  inversion HF as [|x xs Hc HF']; subst. inversion HL as [|x xs Hl HL']; subst. cbn [length] in HT. rewrite Nat2Z.inj_succ in HT.
  assert (D : exists b s st1 t1, imbe_do o a c st t = Ok (b, s, st1, t1)).
  { destruct st as [[cur prev] enh]. unfold imbe_do. destruct Hc as (Hd & Hn & LB). apply imbe_process_total; auto.
    - unfold threshold_room. cbn [enh_of] in HT. lia.
    - intros _. apply usable_55; [apply SS|exact PL]. }
  destruct D as (b & s & st1 & t1 & D). rewrite D. cbn [bind].
  destruct (imbe_step _ _ _ _ _ _ _ _ _ Hc SS TH D) as (S1 & T1 & _ & _ & _ & L1 & _ & _ & _ & _ & _ & _ & _ & _ & _ & A1 & _).
  destruct (IH st1 t1 HF' HL' S1 T1) as (r & st2 & t2 & ->); [| |cbn [bind]; eauto].
  - rewrite L1. set (need := imbe_needs _ _ _ _) in *. destruct (need && _) eqn:K; [exact PL|]. destruct need eqn:EN; [lia|].
    destruct Hl as [Hl|Hl].
    + pose proof (pitch7200_range (ic_bits c) ltac:(apply Hc)) as R. pose proof (zrange_forallb 204 _ harmonics_55 (pitch7200 (ic_bits c)) ltac:(lia)) as Q. cbv beta in Q. apply Z.leb_le in Q. lia.
    + unfold need, imbe_needs in EN. apply orb_false_iff in EN as [EN _]. lia.
  - lia.
Qed.

(* ---- leaving the defined behaviour ---- *)
Lemma imbe_overflow : forall o a aout n d cur prev enh uvq c0 cv t w, is_bits 88 d -> 0 <= n <= 100 -> sane_state (cur, prev, enh) ->
  (pitch7200 d <= 207 -> usable_history (imbe_harmonics (pitch7200 d)) prev) ->
  imbe_needs d n (imbe_rate (p_errorRate prev) n) (context c0 cv) = false ->
  smoothing_Tm (imbe_rate (p_errorRate prev) n) n (p_amplitudeThreshold enh) = UB w ->
  mbe_processImbe4400Dataf_withC0 o a aout n d (cur, prev, enh) uvq c0 cv t = UB w.
Proof.
  intros o a aout n d cur prev enh uvq c0 cv t w Hd Hn (SC & SP & SE) U NN HT. rewrite imbe_process_eq.
  destruct (imbe_parameters_total o d n cur prev c0 cv Hd Hn SC SP U) as ([[[c' p'] rep] mut] & HI). rewrite HI. cbn [bind].
  pose proof (imbe_parameters_sane _ _ _ _ _ _ _ _ _ _ _ Hd Hn SC SP HI) as SN.
  destruct (imbe_parameters_inv _ _ _ _ _ _ _ _ _ _ _ Hd (proj1 SC) (proj1 SP) HI) as (bad & c1 & HD & -> & -> & EC' & W').
  destruct (imbe_decode_cases _ _ _ _ _ _ _ _ _ Hd (proj1 SC) (proj1 SP) HD) as (BB & W1 & WP1 & EP & EC & EL).
  destruct (imbe_entry_rate n cv cur prev) as (ER & EM & ET). rewrite NN in EC'. unfold picked in EC'.
  assert (Q1 : p_errorRate c' = imbe_rate (p_errorRate prev) n) by (rewrite EC', EC; exact ER).
  assert (Q2 : p_errorCountTotal c' = n) by (rewrite EC', EC; exact ET).
  unfold ambe_speak. cbv zeta. destruct (enhance_ok o a c' t) as (e1 & xs & HE & EN); [apply SN|apply SN|]. rewrite HE. cbn [bind].
  destruct EN as (E1 & (E2 & _) & _). 
  rewrite (speech_overflow o aout a e1 enh uvq _ w); [reflexivity| | |].
  - unfold wf_parms in *. rewrite E1. fields. rewrite E2. apply SN.
  - rewrite E1. apply SN.
  - rewrite E1. fields. rewrite Q1, Q2. exact HT.
Qed.
(* seven errors a frame, none in the first code word: 3900 more every frame *)
Lemma Tm_seven : forall rate T, 0 < T -> smoothing_Tm rate 7 T = to_int (3900 + T).
Proof.
  intros rate T HT. unfold smoothing_Tm. cbv zeta. change DEFAULT_AMPLITUDE_THRESHOLD with 20480. change AMPLITUDE_PENALTY with 300. change AMPLITUDE_BASE with 6000.
  replace (7 <=? 6) with false by reflexivity. rewrite andb_false_r. change (to_int (300 * 7)) with (Ok 2100). cbn [bind]. change (to_int (6000 - 2100)) with (Ok 3900). cbn [bind].
  destruct (Z.leb_spec T 0); [lia|reflexivity].
Qed.
Lemma no_need : forall d rate, pitch7200 d <= 207 -> imbe_needs d 7 rate (context 0 true) = false.
Proof. intros d rate H. unfold imbe_needs, context. destruct (Z.ltb_spec 207 (pitch7200 d)); [lia|reflexivity]. Qed.
Lemma overflow_stream : forall o a d buf k st t, is_bits 88 d -> pitch7200 d < 204 -> length buf = 160%nat -> sane_state st -> thread_ok t -> p_L (prev_of st) <= 55 ->
  0 < p_amplitudeThreshold (enh_of st) <= 2147483647 -> 2147483647 < p_amplitudeThreshold (enh_of st) + 3900 * Z.of_nat k ->
  imbe_stream o a (repeat (mkimbe_call d 7 0 true 3 buf) k) st t = UB Overflow.
Proof.
  intros o a d buf k. induction k as [|k IH]; intros st t Hd Hp LB SS TH PL HT HK; [lia|]. cbn [repeat imbe_stream].
  set (c := mkimbe_call d 7 0 true 3 buf) in *. assert (Hc : call_ok c) by (repeat split; cbn; try lia; try apply Hd; exact LB).
  destruct st as [[cur prev] enh]. cbn [enh_of prev_of] in *.
  pose proof (no_need d (imbe_rate (p_errorRate prev) 7) ltac:(lia)) as NN.
  assert (U : pitch7200 d <= 207 -> usable_history (imbe_harmonics (pitch7200 d)) prev) by (intros _; apply usable_55; [apply SS|exact PL]).
  destruct (Z_le_gt_dec (3900 + p_amplitudeThreshold enh) 2147483647) as [A|A].
  - assert (D : exists b s st1 t1, imbe_do o a c (cur, prev, enh) t = Ok (b, s, st1, t1)).
    { assert (N7 : 0 <= 7 <= 100) by lia. unfold imbe_do, c. cbn [ic_buf ic_errors ic_bits ic_uv ic_c0 ic_c0_known]. rewrite imbe_process_eq.
      destruct (imbe_parameters_total o d 7 cur prev 0 true Hd ltac:(lia)) as ([[[c' p'] rep] mut] & HI); [apply SS|apply SS|exact U|]. rewrite HI. cbn [bind].
      pose proof (imbe_parameters_sane _ _ _ _ _ _ _ _ _ _ _ Hd N7 (proj1 SS) (proj1 (proj2 SS)) HI) as SN.
      destruct (imbe_parameters_inv _ _ _ _ _ _ _ _ _ _ _ Hd (proj1 (proj1 SS)) (proj1 (proj1 (proj2 SS))) HI) as (bad & c1 & HD & -> & -> & EC' & W').
      destruct (imbe_decode_cases _ _ _ _ _ _ _ _ _ Hd (proj1 (proj1 SS)) (proj1 (proj1 (proj2 SS))) HD) as (BB & W1 & WP1 & EP & EC & EL).
      destruct (imbe_entry_rate 7 true cur prev) as (ER & EM & ET). rewrite NN in EC'. unfold picked in EC'.
      destruct (speak_defined o a buf c' enh 3 t (3900 + p_amplitudeThreshold enh) SN (proj2 (proj2 SS))) as (b & k2 & t2 & -> & _); [|exact TH|exact LB|cbn [bind]; eauto].
      replace (p_errorCountTotal c') with 7 by (rewrite EC', EC; symmetry; exact ET). rewrite Tm_seven by lia. apply to_int_ok. lia. }
    destruct D as (b & s & st1 & t1 & D). rewrite D. cbn [bind].
    destruct (imbe_step _ _ _ _ _ _ _ _ _ Hc SS TH D) as (S1 & T1 & _ & _ & ER1 & L1 & _ & _ & _ & _ & _ & _ & _ & _ & _ & _ & A1 & ET1 & _).
    cbn [prev_of enh_of ic_bits ic_errors ic_c0 ic_c0_known] in *. unfold c in ER1, L1, ET1. cbn [ic_bits ic_errors ic_c0 ic_c0_known] in ER1, L1, ET1. rewrite NN in ER1, L1, ET1. cbn [andb] in *. rewrite ET1, Tm_seven in A1 by lia.
    apply to_int_inv in A1 as [A1 _].
    rewrite (IH st1 t1 Hd Hp LB S1 T1); [reflexivity| | |].
    + rewrite L1. pose proof (pitch7200_range d Hd) as R. pose proof (zrange_forallb 204 _ harmonics_55 (pitch7200 d) ltac:(lia)) as Q. cbv beta in Q. apply Z.leb_le in Q. lia.
    + rewrite A1. lia.
    + rewrite A1. lia.
  - unfold imbe_do. cbn [ic_buf ic_errors ic_bits ic_uv ic_c0 ic_c0_known c].
    rewrite (imbe_overflow o a buf 7 d cur prev enh 3 0 true t Overflow Hd ltac:(lia) SS U NN); [reflexivity|]. rewrite Tm_seven by lia.
    unfold to_int. destruct (in_int _) eqn:E; [|reflexivity]. unfold in_int in E. lia.
Qed.
(* the second frame of 56 harmonics *)
Lemma outside_stream : forall o a d buf st t, is_bits 88 d -> 204 <= pitch7200 d <= 207 -> length buf = 160%nat -> sane_state st -> thread_ok t -> p_L (prev_of st) <= 55 ->
  threshold_room (enh_of st) -> imbe_stream o a [mkimbe_call d 0 0 true 3 buf; mkimbe_call d 0 0 true 3 buf] st t = UB OOB.
Proof.
  intros o a d buf st t Hd Hp LB SS TH PL TR. cbn [imbe_stream]. set (c := mkimbe_call d 0 0 true 3 buf) in *.
  assert (Hc : call_ok c) by (repeat split; cbn; try lia; try apply Hd; exact LB).
  assert (D : exists b s st1 t1, imbe_do o a c st t = Ok (b, s, st1, t1)).
  { destruct st as [[cur prev] enh]. unfold imbe_do. apply imbe_process_total; auto; try (cbn; lia). intros _. apply usable_55; [apply SS|exact PL]. }
  destruct D as (b & s & st1 & t1 & D). rewrite D. cbn [bind].
  destruct (imbe_step _ _ _ _ _ _ _ _ _ Hc SS TH D) as (S1 & T1 & _ & _ & _ & L1 & _).
  assert (NN : forall rate, imbe_needs d 0 rate (context 0 true) = false). { intros rate. unfold imbe_needs, context. destruct (Z.ltb_spec 207 (pitch7200 d)); [lia|reflexivity]. }
  assert (H56 : imbe_harmonics (pitch7200 d) = 56).
  { assert (E : pitch7200 d = 204 \/ pitch7200 d = 205 \/ pitch7200 d = 206 \/ pitch7200 d = 207) by lia. destruct E as [E|[E|[E|E]]]; rewrite E; vm_compute; reflexivity. }
  unfold c in L1. cbn [ic_bits ic_errors ic_c0 ic_c0_known] in L1. rewrite NN in L1. cbn [andb] in L1. rewrite H56 in L1.
  destruct st1 as [[cur prev] enh]. unfold imbe_do. cbn [ic_buf ic_errors ic_bits ic_uv ic_c0 ic_c0_known c]. rewrite imbe_process_eq. unfold imbe_parameters. cbv zeta.
  cbn [prev_of] in L1. rewrite imbe_decode_outside; [reflexivity|exact Hd|apply S1|apply S1|lia|exact L1|rewrite H56; lia|rewrite H56; lia].
Qed.

(* ---- the noise generator across frames ---- *)
Lemma speak_seed : forall o a aout cur enh uvq t aout' st' t', wf_parms cur -> 0 <= p_L cur <= 56 -> speech_muted cur = false ->
  ambe_speak o a aout cur enh uvq t = Ok (aout', st', t') -> seed_after (p_noiseSeed cur) t (p_noiseSeed (cur_of st')).
Proof.
  intros o a aout cur enh uvq t aout' st' t' WC HL MU H. unfold ambe_speak in H. cbv zeta in H. unfold mbe_moveMbeParms in H.
  destruct (enhance_ok o a cur t) as (c1 & xs & HE & EN); [apply WC|exact HL|]. rewrite HE in H. cbn [bind] in H.
  apply bind_inv in H as ([[[b c2] e2] t2] & HS & H).
  assert (Q : st' = (c2, cur, c2) /\ aout' = b /\ t' = t2) by (injection H as <- <- <-; auto). destruct Q as (-> & -> & ->). clear H. cbn [cur_of].
  destruct EN as (E1 & (E2 & _) & _). assert (ME : speech_muted c1 = speech_muted cur) by (rewrite E1; reflexivity).
  apply speech_inv in HS as (c3 & t3 & HA & HS). pose proof (smoothing_but _ _ _ _ _ _ _ HA) as BS. pose proof (muted_smoothing _ _ BS) as MM.
  pose proof (smoothing_tls _ _ _ _ _ _ _ HA) as TL. destruct HS as [(M & _)|(_ & F)]; [congruence|].
  assert (T3 : cold_seed t3 = cold_seed t).
  { rewrite TL. destruct (pending _ a); unfold mbe_setPreEnhRm0; destruct (fge _ _); reflexivity. }
  destruct F as (noise & seed & ov & nu & c & p & HN & B1 & _ & _ & _ & (F1 & _) & _). cbn [fst] in F1.
  assert (K : p_noiseSeed c2 = seed). { apply (f_equal p_noiseSeed) in F1. fields. rewrite F1, B1. reflexivity. }
  assert (S3 : p_noiseSeed c3 = p_noiseSeed cur) by (rewrite BS, E1; reflexivity).
  assert (O3 : length (p_noiseOverlap c3) = 96%nat). { rewrite BS, E1. destruct WC as (_ & _ & _ & _ & _ & _ & WO). exact WO. }
  rewrite S3 in HN. rewrite K. split.
  - intros C. rewrite noise_cold in HN by exact C. apply Ok4 in HN as (_ & <- & _). rewrite T3. reflexivity.
  - intros z Hz E. rewrite E, noise_warm in HN by assumption. apply Ok4 in HN as (_ & <- & _). reflexivity.
Qed.
Lemma imbe_seed : forall o a c st t b str st' t', call_ok c -> sane_state st -> thread_ok t -> imbe_do o a c st t = Ok (b, str, st', t') ->
  speech_muted (prev_of st') = false -> seed_after (p_noiseSeed (prev_of st')) t (p_noiseSeed (cur_of st')).
Proof.
  intros o a c [[cur prev] enh] t b str st' t' (Hd & Hn & LB) (SC & SP & SE) TH H MU. unfold imbe_do in H. rewrite imbe_process_eq in H.
  apply bind_inv in H as ([[[c' p'] rep] mut] & HI & H). apply bind_inv in H as ([[b1 st1] t1] & HS & H). apply Ok4 in H as (-> & <- & -> & ->).
  pose proof (imbe_parameters_sane _ _ _ _ _ _ _ _ _ _ _ Hd Hn SC SP HI) as SN.
  destruct (speak_inv _ _ _ _ _ _ _ _ _ _ (proj1 SN) (proj1 SE) (proj1 (proj2 SN)) LB HS) as (k & E & _). rewrite E in MU |- *. cbn [prev_of cur_of] in *.
  pose proof (speak_seed _ _ _ _ _ _ _ _ _ _ (proj1 SN) (proj1 (proj2 SN)) MU HS) as Q. rewrite E in Q. exact Q.
Qed.

(* ---- the filtered error rate ---- *)
Lemma ff_finite : forall x, ff x -> finite x.
Proof. intros x [_ H]. destruct x; try discriminate H; exact I. Qed.
Lemma rate_step : forall hi h1 h2 k x n N, ff hi -> ff h1 -> ff h2 -> ff k -> 0 <= n <= N -> N <= 1000 -> (0 <= R_of k)%R ->
  (R_of (flit 95 100) * R_of hi <= R_of h1)%R -> (R_of k * IZR N <= R_of h2)%R -> (R_of h1 + R_of h2 <= R_of hi)%R ->
  rate_in hi x -> rate_in hi (fadd (fmul (flit 95 100) x) (fmul k (f_of_Z n))).
Proof.
  intros hi h1 h2 k x n N Fh F1 F2 Fk Hn HN Pk B1 B2 B3 (V & F & L & U).
  assert (FX : ff x) by (split; [exact V|destruct x; cbn in F |- *; tauto]). assert (FZ : ff (S754_zero false)) by (split; reflexivity).
  apply fle_true in L; [|assumption..]. apply fle_true in U; [|assumption..]. change (R_of (S754_zero false)) with 0%R in L.
  assert (F95 : ff (flit 95 100)) by (split; vm_compute; reflexivity).
  assert (P95 : (0 <= R_of (flit 95 100))%R) by (R_val (flit 95 100); lra).
  destruct (of_Z_R n ltac:(lia)) as [FN RN]. assert (0 <= IZR n <= IZR N)%R by (split; apply IZR_le; lia).
  destruct (fmul_b (flit 95 100) x (S754_zero false) h1 F95 FX FZ F1) as (G1 & G2).
  { change (R_of (S754_zero false)) with 0%R. split; [apply Rmult_le_pos; assumption|]. apply Rle_trans with (2 := B1). apply Rmult_le_compat_l; assumption. }
  destruct (fmul_b k (f_of_Z n) (S754_zero false) h2 Fk FN FZ F2) as (G3 & G4).
  { change (R_of (S754_zero false)) with 0%R. rewrite RN. split; [apply Rmult_le_pos; lra|]. apply Rle_trans with (2 := B2). apply Rmult_le_compat_l; lra. }
  change (R_of (S754_zero false)) with 0%R in G2, G4.
  destruct (fadd_b _ _ (S754_zero false) hi G1 G3 FZ Fh) as (G5 & G6).
  { change (R_of (S754_zero false)) with 0%R. lra. }
  change (R_of (S754_zero false)) with 0%R in G6.
  split; [apply G5|]. split; [|split].
  - apply ff_finite, G5.
  - apply fle_true; [assumption..|]. change (R_of (S754_zero false)) with 0%R. lra.
  - apply fle_true; [assumption..|]. lra.
Qed.
Ltac consts := match goal with |- ff _ => split; vm_compute; reflexivity end.
Lemma imbe_rate_in : forall x n, rate_in (flit 11 100) x -> 0 <= n <= 15 -> rate_in (flit 11 100) (imbe_rate x n).
Proof.
  intros x n H Hn. apply (rate_step (flit 11 100) (flit 104501 1000000) (flit 54751 10000000) _ x n 15); try consts; try exact H; try lia.
  - R_val (flit 365 1000000). lra.
  - R_val (flit 95 100). R_val (flit 11 100). R_val (flit 104501 1000000). intros; lra.
  - R_val (flit 365 1000000). R_val (flit 54751 10000000). intros; lra.
  - R_val (flit 11 100). R_val (flit 104501 1000000). R_val (flit 54751 10000000). intros; lra.
Qed.
Lemma imbe_rate_stream : forall o a cs st t r st' t', Forall call_ok cs -> Forall (fun c => ic_errors c <= 15) cs -> sane_state st -> thread_ok t ->
  rate_in (flit 11 100) (p_errorRate (prev_of st)) -> imbe_stream o a cs st t = Ok (r, st', t') -> rate_in (flit 11 100) (p_errorRate (prev_of st')).
Proof.
  induction cs as [|c cs IH]; intros st t r st' t' HF HE SS TH HR H; cbn [imbe_stream] in H.
  - injection H as <- <- <-. exact HR.
  - inversion HF as [|x xs Hc HF']; subst. inversion HE as [|x xs He HE']; subst. apply bind_inv in H as ([[[b s] st1] t1] & H1 & H). apply bind_inv in H as ([[r1 st2] t2] & H2 & H).
    injection H as <- <- <-. destruct (imbe_step _ _ _ _ _ _ _ _ _ Hc SS TH H1) as (S1 & T1 & _ & _ & ER & _).
    apply (IH _ _ _ _ _ HF' HE' S1 T1) in H2; [exact H2|]. rewrite ER. destruct (_ && _); [exact HR|]. apply imbe_rate_in; [exact HR|]. destruct Hc as (_ & Hn & _). lia.
Qed.

(* ---- from initialisation ---- *)
Lemma sane_imbe : sane imbe_initial.
Proof.
  split; [apply imbe_initial_wf|]. repeat split; try (vm_compute; discriminate). left. reflexivity.
Qed.
Lemma sane_ambe : sane ambe_initial.
Proof.
  split; [apply ambe_initial_wf|]. repeat split; try (vm_compute; discriminate). left. reflexivity.
Qed.
Lemma sane_start : sane_state start. Proof. repeat split; apply sane_imbe. Qed.
Lemma sane_start_ambe : sane_state start_ambe. Proof. repeat split; apply sane_ambe. Qed.
(* a frame without errors that is decoded, from a state with rate 0 *)
Definition calm (st : dstate) : Prop := sane_state st /\ p_errorRate (prev_of st) = S754_zero false /\ imbe_threshold st /\ p_L (prev_of st) <= 55 /\
  p_repeatCount (prev_of st) = 0 /\ p_amplitudeThreshold (enh_of st) <= 1000000.
Lemma calm_start : calm start.
Proof. split; [apply sane_start|]. repeat split; vm_compute; discriminate. Qed.
Lemma calm_step : forall o a d buf st t, is_bits 88 d -> pitch7200 d < 204 -> length buf = 160%nat -> calm st -> p_amplitudeThreshold (enh_of st) <= 900000 -> thread_ok t ->
  exists b s st' t', imbe_do o a (mkimbe_call d 0 0 true 3 buf) st t = Ok (b, s, st', t') /\ calm st' /\ thread_ok t' /\ p_amplitudeThreshold (enh_of st') <= Z.max 20480 (p_amplitudeThreshold (enh_of st)) + 6000 /\
  p_noiseSeed (prev_of st') = p_noiseSeed (cur_of st) /\ seed_after (p_noiseSeed (cur_of st)) t (p_noiseSeed (cur_of st')).
Proof.
  intros o a d buf st t Hd Hp LB (SS & R0 & IT & PL & RC & AT) AT' TH. set (c := mkimbe_call d 0 0 true 3 buf).
  assert (Hc : call_ok c) by (repeat split; cbn; try lia; try apply Hd; exact LB).
  assert (D : exists b s st1 t1, imbe_do o a c st t = Ok (b, s, st1, t1)).
  { destruct st as [[cur prev] enh]. unfold imbe_do. apply imbe_process_total; auto; try (cbn; lia).
    - unfold threshold_room. cbn [enh_of] in AT. lia.
    - intros _. apply usable_55; [apply SS|exact PL]. }
  destruct D as (b & s & st1 & t1 & D). exists b, s, st1, t1. split; [exact D|].
  assert (NN : forall rate, imbe_needs d 0 rate (context 0 true) = false). { intros rate. unfold imbe_needs, context. destruct (Z.ltb_spec 207 (pitch7200 d)); [lia|reflexivity]. }
  destruct (imbe_step _ _ _ _ _ _ _ _ _ Hc SS TH D) as (S1 & T1 & C1 & M1 & ER1 & L1 & _ & NS & _ & _ & _ & _ & _ & _ & _ & A1 & _).
  unfold c in C1, M1, ER1, L1, NS. cbn [ic_bits ic_errors ic_c0 ic_c0_known] in *. rewrite NN in C1, M1, ER1, L1, NS. cbn [andb next_count] in *.
  assert (R1 : p_errorRate (prev_of st1) = S754_zero false). { rewrite ER1, R0. vm_compute. reflexivity. }
  assert (MU : speech_muted (prev_of st1) = false). { rewrite imbe_muted_eq by exact M1. rewrite C1, R1, M1. vm_compute. reflexivity. }
  split; [|split; [exact T1|split; [lia|split; [exact NS|]]]].
  - split; [exact S1|]. split; [exact R1|]. split; [exact M1|]. split; [|split; [exact C1|lia]].
    rewrite L1. pose proof (pitch7200_range d Hd) as R. pose proof (zrange_forallb 204 _ harmonics_55 (pitch7200 d) ltac:(lia)) as Q. cbv beta in Q. apply Z.leb_le in Q. lia.
  - rewrite <- NS. exact (imbe_seed _ _ _ _ _ _ _ _ _ Hc SS TH D MU).
Qed.
(* two decoded frames, then a concealed one: the generator is where it was *)
Lemma noise_rewound : forall o a d d' buf t, is_bits 88 d -> pitch7200 d < 204 -> is_bits 88 d' -> 207 < pitch7200 d' -> length buf = 160%nat -> thread_ok t ->
  exists r st1 t1 b s st2 t2, let good := mkimbe_call d 0 0 true 3 buf in
    imbe_stream o a [good; good] start t = Ok (r, st1, t1) /\ imbe_do o a (mkimbe_call d' 0 0 true 3 buf) st1 t1 = Ok (b, s, st2, t2) /\
    marked 77 s = false /\ p_noiseSeed (cur_of st1) = f_of_Z (lcg_state (cold_seed t) 160) /\ p_noiseSeed (cur_of st2) = p_noiseSeed (cur_of st1).
Proof.
  intros o a d d' buf t Hd Hp Hd' Hp' LB TH.
  destruct (calm_step o a d buf start t Hd Hp LB calm_start) as (b1 & s1 & st1 & t1 & D1 & K1 & T1 & A1 & P1 & N1); [vm_compute; discriminate|exact TH|].
  change (p_amplitudeThreshold (enh_of start)) with 20480 in A1.
  destruct (calm_step o a d buf st1 t1 Hd Hp LB K1) as (b2 & s2 & st2 & t2 & D2 & K2 & T2 & A2 & P2 & N2); [lia|exact T1|].
  set (c := mkimbe_call d' 0 0 true 3 buf). assert (Hc : call_ok c) by (repeat split; cbn; try lia; try apply Hd'; exact LB).
  destruct K2 as (SS & R2 & IT & PL & RC & AT).
  assert (D : exists b s st3 t3, imbe_do o a c st2 t2 = Ok (b, s, st3, t3)).
  { destruct st2 as [[cur prev] enh]. unfold imbe_do. apply imbe_process_total; auto; try (cbn; lia).
    - unfold threshold_room. cbn [enh_of] in AT. lia.
    - intros _. apply usable_55; [apply SS|exact PL]. }
  destruct D as (b & s & st3 & t3 & D).
  assert (NN : forall rate, imbe_needs d' 0 rate (context 0 true) = true). { intros rate. unfold imbe_needs, context. destruct (Z.ltb_spec 207 (pitch7200 d')); [reflexivity|lia]. }
  destruct (imbe_step _ _ _ _ _ _ _ _ _ Hc SS T2 D) as (S3 & T3 & C3 & M3 & ER3 & _ & _ & NS & _ & _ & _ & _ & _ & MK & _ & A3 & _).
  unfold c in C3, M3, ER3, NS. cbn [ic_bits ic_errors ic_c0 ic_c0_known] in *. rewrite NN, RC in C3, M3, ER3, NS. cbn [andb] in *. change (0 <? 4) with true in *. cbv iota in *.
  assert (C3' : p_repeatCount (prev_of st3) = 1) by (rewrite C3; reflexivity).
  rewrite IT in M3. assert (MU : speech_muted (prev_of st3) = false). { rewrite imbe_muted_eq by exact M3. rewrite C3', ER3, R2, M3. vm_compute. reflexivity. }
  pose proof (imbe_seed _ _ _ _ _ _ _ _ _ Hc SS T2 D MU) as N3.
  assert (C0 : p_noiseSeed (cur_of st1) = f_of_Z (cold_seed t)) by (apply N1; reflexivity).
  assert (E2 : p_noiseSeed (cur_of st2) = f_of_Z (lcg_state (cold_seed t) 160)) by (apply N2; [exact TH|exact C0]).
  exists [(b1, s1); (b2, s2)], st2, t2, b, s, st3, t3. cbv zeta. split; [|split; [exact D|split; [|split; [exact E2|]]]].
  - cbn [imbe_stream]. rewrite D1. cbn [bind]. rewrite D2. reflexivity.
  - rewrite MK, C3', ER3, R2, M3. vm_compute. reflexivity.
  - rewrite E2. apply N3; [exact TH|]. rewrite NS, P2. exact C0.
Qed.
(* a frame concealed right after AMBE use keeps the AMBE threshold *)
Lemma threshold_kept : forall o a d buf t, is_bits 88 d -> 207 < pitch7200 d -> length buf = 160%nat -> thread_ok t ->
  exists b s st' t', imbe_do o a (mkimbe_call d 0 0 true 3 buf) start_ambe t = Ok (b, s, st', t') /\ p_mutingThreshold (prev_of st') = flit 96 1000 /\ p_mutingThreshold (cur_of st') = flit 96 1000.
Proof.
  intros o a d buf t Hd Hp LB TH. set (c := mkimbe_call d 0 0 true 3 buf). assert (Hc : call_ok c) by (repeat split; cbn; try lia; try apply Hd; exact LB).
  assert (D : exists b s st3 t3, imbe_do o a c start_ambe t = Ok (b, s, st3, t3)).
  { unfold imbe_do, start_ambe. apply imbe_process_total; auto; try (cbn; lia).
    - apply sane_start_ambe.
    - vm_compute. discriminate.
    - intros _. apply usable_55; [apply sane_ambe|vm_compute; discriminate]. }
  destruct D as (b & s & st3 & t3 & D). exists b, s, st3, t3. split; [exact D|].
  assert (NN : forall rate, imbe_needs d 0 rate (context 0 true) = true). { intros rate. unfold imbe_needs, context. destruct (Z.ltb_spec 207 (pitch7200 d)); [reflexivity|lia]. }
  destruct (imbe_step _ _ _ _ _ _ _ _ _ Hc sane_start_ambe TH D) as (_ & _ & _ & M3 & _ & _ & _ & _ & _ & _ & _ & BS & _).
  unfold c in M3. cbn [ic_bits ic_errors ic_c0 ic_c0_known] in *. rewrite NN in M3. split; [exact M3|]. rewrite BS. exact M3.
Qed.
(* with the IMBE threshold in place it stays, over any stream *)
Lemma threshold_stream : forall o a cs st t r st' t', Forall call_ok cs -> sane_state st -> thread_ok t -> imbe_threshold st ->
  imbe_stream o a cs st t = Ok (r, st', t') -> imbe_threshold st'.
Proof.
  induction cs as [|c cs IH]; intros st t r st' t' HF SS TH HR H; cbn [imbe_stream] in H.
  - injection H as <- <- <-. exact HR.
  - inversion HF as [|x xs Hc HF']; subst. apply bind_inv in H as ([[[b s] st1] t1] & H1 & H). apply bind_inv in H as ([[r1 st2] t2] & H2 & H).
    injection H as <- <- <-. destruct (imbe_step _ _ _ _ _ _ _ _ _ Hc SS TH H1) as (S1 & T1 & _).
    destruct (imbe_noise _ _ _ _ _ _ _ _ _ Hc SS TH HR H1) as [I1 _]. exact (IH _ _ _ _ _ HF' S1 T1 I1 H2).
Qed.

(* ---- statements of the property file ---- *)
Lemma imbe_defined : forall o a c st t, call_ok c -> sane_state st -> thread_ok t -> threshold_room (enh_of st) ->
  (pitch7200 (ic_bits c) <= 207 -> usable_history (imbe_harmonics (pitch7200 (ic_bits c))) (prev_of st)) ->
  exists b str st' t', imbe_do o a c st t = Ok (b, str, st', t') /\ sane_state st' /\ thread_ok t' /\ length b = 160%nat.
Proof.
  intros o a c st t Hc SS TH TR U.
  assert (D : exists b s st1 t1, imbe_do o a c st t = Ok (b, s, st1, t1)).
  { destruct st as [[cur prev] enh]. unfold imbe_do. destruct Hc as (Hd & Hn & LB). apply imbe_process_total; auto. }
  destruct D as (b & s & st1 & t1 & D). exists b, s, st1, t1. split; [exact D|].
  pose proof (imbe_step _ _ _ _ _ _ _ _ _ Hc SS TH D) as Q. cbv zeta in Q. tauto.
Qed.
Lemma imbe_start_total : forall o a cs t, Forall call_ok cs -> Forall few_harmonics cs -> thread_ok t -> Z.of_nat (length cs) <= 357000 ->
  exists r st' t', imbe_stream o a cs start t = Ok (r, st', t').
Proof.
  intros o a cs t HF HL TH HN. apply imbe_stream_total; auto; [apply sane_start|vm_compute; discriminate|].
  change (p_amplitudeThreshold (enh_of start)) with 20480. lia.
Qed.
Lemma bits_repeat : forall v n, v = 0 \/ v = 1 -> is_bits n (repeat v n).
Proof. intros v n Hv. split; [apply repeat_length|]. apply Forall_forall. intros x Hx. apply repeat_spec in Hx. subst. exact Hv. Qed.
Lemma call_repeat : forall v n k u x, v = 0 \/ v = 1 -> 0 <= n <= 100 -> call_ok (mkimbe_call (repeat v 88) n k u 3 (repeat x 160)).
Proof. intros v n k u x Hv Hn. split; [apply bits_repeat, Hv|]. split; [exact Hn|apply repeat_length]. Qed.
Definition quiet : list f32 := repeat (S754_zero false) 160.
Definition thread0 : tls := mktls 0 0 false (S754_zero false) false None 0 false.
Lemma case_ok : let good := mkimbe_call (repeat 0 88) 0 0 true 3 quiet in let bad := mkimbe_call (repeat 1 88) 0 0 true 3 quiet in
  Forall call_ok [good; bad] /\ Forall few_harmonics [good; bad] /\ thread_ok thread0 /\ sane_state start.
Proof.
  cbv zeta. split; [|split; [|split; [split; vm_compute; congruence|apply sane_start]]].
  - constructor; [|constructor; [|constructor]]; apply call_repeat; lia || auto.
  - constructor; [left; vm_compute; reflexivity|constructor; [right; vm_compute; reflexivity|constructor]].
Qed.
Lemma thread0_ok : thread_ok thread0. Proof. split; vm_compute; congruence. Qed.
(* pitch code 204: bits 11001100; the two low bits of the code are elsewhere in the vector *)
Definition wide_bits : list Z := [1;1;0;0;1;1] ++ repeat 0 82.
Lemma outside_witness : exists o a c t, call_ok c /\ thread_ok t /\ imbe_stream o a [c; c] start t = UB OOB.
Proof.
  exists zero_oracle, 1, (mkimbe_call wide_bits 0 0 true 3 quiet), thread0.
  assert (B : is_bits 88 wide_bits). { split; [reflexivity|]. unfold wide_bits. apply Forall_app. split; [repeat (constructor; [unfold is_bit; lia|]); constructor|]. exact (proj2 (bits_repeat 0 82 (or_introl eq_refl))). }
  split; [|split; [apply thread0_ok|]].
  - split; [exact B|]. split; [cbn; lia|reflexivity].
  - apply outside_stream; [exact B|vm_compute; split; discriminate|reflexivity|apply sane_start|apply thread0_ok|vm_compute; discriminate|vm_compute; discriminate].
Qed.
Lemma threshold_witness : exists o a c t b str st' t', call_ok c /\ thread_ok t /\ imbe_do o a c start_ambe t = Ok (b, str, st', t') /\
  p_mutingThreshold (cur_of st') <> flit 875 10000 /\ p_mutingThreshold (cur_of st') = flit 96 1000.
Proof.
  destruct (threshold_kept zero_oracle 1 (repeat 1 88) quiet thread0) as (b & s & st & t & H & _ & Q); [apply bits_repeat; auto|vm_compute; reflexivity|reflexivity|apply thread0_ok|].
  exists zero_oracle, 1, (mkimbe_call (repeat 1 88) 0 0 true 3 quiet), thread0, b, s, st, t.
  split; [apply call_repeat; lia || auto|]. split; [apply thread0_ok|]. split; [exact H|]. split; [|exact Q]. rewrite Q. vm_compute. discriminate.
Qed.
Lemma threshold_partial : forall o a c st t b str st' t', call_ok c -> sane_state st -> thread_ok t -> imbe_do o a c st t = Ok (b, str, st', t') ->
  marked 82 str = false \/ imbe_threshold st -> p_mutingThreshold (cur_of st') = flit 875 10000 /\ imbe_threshold st'.
Proof.
  intros o a c st t b str st' t' Hc SS TH H HM. destruct (imbe_step _ _ _ _ _ _ _ _ _ Hc SS TH H) as (_ & _ & _ & M & _ & _ & _ & _ & _ & _ & _ & BS & R & _).
  assert (E : imbe_threshold st'). { unfold imbe_threshold. rewrite M, <- R. destruct HM as [->|I]; [reflexivity|]. destruct (marked 82 str && _); [exact I|reflexivity]. }
  split; [|exact E]. rewrite BS. exact E.
Qed.
Lemma overflow_witness : exists o a cs t, Forall call_ok cs /\ thread_ok t /\ imbe_stream o a cs start t = UB Overflow.
Proof.
  exists zero_oracle, 1, (repeat (mkimbe_call (repeat 0 88) 7 0 true 3 quiet) (Z.to_nat 551000)), thread0.
  split; [|split; [apply thread0_ok|]].
  - apply Forall_forall. intros x Hx. apply repeat_spec in Hx. subst. apply call_repeat; lia || auto.
  - apply overflow_stream; [apply bits_repeat; auto|vm_compute; reflexivity|reflexivity|apply sane_start|apply thread0_ok|vm_compute; discriminate|vm_compute; split; congruence|].
    change (p_amplitudeThreshold (enh_of start)) with 20480. rewrite Z2Nat.id; lia.
Qed.
Lemma noise_partial : forall o a c st t b str st' t', call_ok c -> sane_state st -> thread_ok t -> imbe_do o a c st t = Ok (b, str, st', t') ->
  speech_muted (prev_of st') = false ->
  (marked 82 str = false -> seed_after (p_noiseSeed (cur_of st)) t (p_noiseSeed (cur_of st'))) /\
  (marked 82 str = true -> p_repeatCount (prev_of st) < 4 -> seed_after (p_noiseSeed (prev_of st)) t (p_noiseSeed (cur_of st'))).
Proof.
  intros o a c st t b str st' t' Hc SS TH H MU. pose proof (imbe_seed _ _ _ _ _ _ _ _ _ Hc SS TH H MU) as N.
  destruct (imbe_step _ _ _ _ _ _ _ _ _ Hc SS TH H) as (_ & _ & _ & _ & _ & _ & _ & NS & _ & _ & _ & _ & R & _). rewrite NS, <- R in N. split.
  - intros E. rewrite E in N. exact N.
  - intros E L. rewrite E in N. destruct (Z.ltb_spec (p_repeatCount (prev_of st)) 4); [|lia]. exact N.
Qed.
Lemma noise_witness : exists o a cs c t r st t' b str st' t'', Forall call_ok cs /\ call_ok c /\ thread_ok t /\ imbe_stream o a cs start t = Ok (r, st, t') /\
  imbe_do o a c st t' = Ok (b, str, st', t'') /\ marked 77 str = false /\ p_noiseSeed (cur_of st') = p_noiseSeed (cur_of st) /\
  ~ seed_after (p_noiseSeed (cur_of st)) t' (p_noiseSeed (cur_of st')).
Proof.
  destruct (noise_rewound zero_oracle 1 (repeat 0 88) (repeat 1 88) quiet thread0) as (r & st & t & b & s & st2 & t2 & H1 & H2 & M & E1 & E2);
    [apply bits_repeat; auto|vm_compute; reflexivity|apply bits_repeat; auto|vm_compute; reflexivity|reflexivity|apply thread0_ok|].
  do 5 eexists. exists r, st, t, b, s, st2, t2. split; [|split; [|split; [|split; [exact H1|split; [exact H2|split; [exact M|split; [exact E2|]]]]]]].
  - constructor; [|constructor; [|constructor]]; apply call_repeat; lia || auto.
  - apply call_repeat; lia || auto.
  - apply thread0_ok.
  - intros [_ Q]. rewrite E2, E1 in Q. specialize (Q (lcg_state (cold_seed thread0) 160)). 
    assert (V : lcg_state (cold_seed thread0) 160 = lcg_state 3147 160) by reflexivity. rewrite V in Q.
    assert (K : (f_of_Z (lcg_state 3147 160) = f_of_Z (lcg_state (lcg_state 3147 160) 160)) -> False) by (vm_compute; discriminate).
    apply K, Q; [vm_compute; split; congruence|reflexivity].
Qed.

(* ---- C56: concealed frames repeat the last model ---- *)
Lemma same_model_refl : forall m, same_model m m. Proof. intros m. repeat split. Qed.
Lemma same_model_trans : forall a b c, same_model a b -> same_model b c -> same_model a c.
Proof.
  intros a b c (A1 & A2 & A3 & A4 & A5 & A6) (B1 & B2 & B3 & B4 & B5 & B6). repeat (split; [congruence|]). intros l Hl.
  destruct (A6 l Hl) as [-> ->] || destruct (A6 l Hl) as [E1 E2]. destruct (B6 l) as [E3 E4]; [congruence|]. split; congruence.
Qed.
Lemma imbe_reuse : forall o a c st t b str st' t', call_ok c -> sane_state st -> imbe_do o a c st t = Ok (b, str, st', t') ->
  marked 82 str = true -> p_repeatCount (prev_of st) < 4 -> same_model (prev_of st) (prev_of st').
Proof.
  intros o a c [[cur prev] enh] t b str st' t' (Hd & Hn & LB) SS H MK RC. cbn [prev_of] in *. unfold imbe_do in H.
  destruct (imbe_process_inv _ _ _ _ _ _ _ _ _ _ _ _ _ _ _ _ Hd Hn SS LB H) as (bad & c1 & p1 & c' & k & HD & EC' & SN & -> & _ & _ & ES & _).
  rewrite ES, marked_R in MK. rewrite MK in EC'. unfold picked in EC'. destruct (Z.ltb_spec (p_repeatCount prev) 4); [|lia]. cbn [prev_of].
  assert (Q : same_model prev p1).
  { destruct SS as (SC & SP & SE). set (e := imbe_entry (ic_errors c) (ic_c0_known c) cur prev) in *.
    assert (WE : wf_parms e) by (unfold e, imbe_entry; destruct (ic_c0_known c); exact (proj1 SC)).
    destruct (Z_lt_ge_dec 207 (pitch7200 (ic_bits c))) as [A|A].
    - rewrite imbe_decode_bad in HD by assumption. assert (P : p1 = prev) by (injection HD; auto). rewrite P. apply same_model_refl.
    - destruct (imbe_decode_inv _ _ _ _ _ _ _ Hd ltac:(lia) (proj1 WE) HD) as (_ & AC & _). unfold imbe_accepted in AC.
      destruct AC as (_ & _ & _ & _ & _ & _ & _ & _ & (_ & X1 & _) & (_ & X2 & _) & EP).
      assert (G : forall {A} (g : parms -> A), (forall x y m, g (set_log2Ml x (set_Ml y m)) = g m) -> g p1 = g prev) by (intros T g Hg; rewrite EP; apply Hg).
      unfold same_model. rewrite (G _ p_w0), (G _ p_L), (G _ p_K), (G _ p_Vl), (G _ p_gamma) by reflexivity. repeat (split; [reflexivity|]).
      intros l Hl. split; [apply X1|apply X2]; left; exact Hl. }
  rewrite EC'. exact Q.
Qed.
Lemma imbe_reuse_stream : forall o a cs st t r st' t', Forall call_ok cs -> sane_state st -> thread_ok t -> imbe_stream o a cs st t = Ok (r, st', t') ->
  Forall (fun x => marked 82 (snd x) = true) r -> p_repeatCount (prev_of st) + Z.of_nat (length cs) <= 4 -> same_model (prev_of st) (prev_of st').
Proof.
  induction cs as [|c cs IH]; intros st t r st' t' HF SS TH H HR HN; cbn [imbe_stream] in H.
  - injection H as <- <- <-. apply same_model_refl.
  - inversion HF as [|x xs Hc HF']; subst. apply bind_inv in H as ([[[b s] st1] t1] & H1 & H). apply bind_inv in H as ([[r1 st2] t2] & H2 & H).
    injection H as <- <- <-. inversion HR as [|x xs MR HR']; subst. cbn [snd] in MR. cbn [length] in HN. rewrite Nat2Z.inj_succ in HN.
    destruct (imbe_step _ _ _ _ _ _ _ _ _ Hc SS TH H1) as (S1 & T1 & C1 & _ & _ & _ & _ & _ & _ & _ & _ & _ & M1 & _).
    rewrite M1 in MR. apply same_model_trans with (prev_of st1).
    + apply (imbe_reuse _ _ _ _ _ _ _ _ _ Hc SS H1); [congruence|lia].
    + apply (IH _ _ _ _ _ HF' S1 T1 H2 HR'). rewrite C1, MR. unfold next_count. destruct (Z.ltb_spec (p_repeatCount (prev_of st)) 4); lia.
Qed.
