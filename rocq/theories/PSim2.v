(* A tone frame has no influence on the voice frames after it. *)
From Coq Require Import ZArith List Bool Lia Reals Lra.
From Verif Require Import Res F32 MFrame MParms MAdaptive MUnvoiced MSynth MImbe MAmbe SpecEcc SpecFrame SpecState SpecAdaptive SpecGen SpecOut SpecWola SpecImbe SpecAmbe SpecEnh SpecMachine SpecTone SpecAmbeMachine SpecTone2
  PBase PRun PLoop PState PFloat PFloat2 PArr PAdapt PGen POut PWola PSpeech PConv PImbe PAmbeDec PAmbeDec2 PEnh PNyq PMachine PStream PTone PAmbeMachine PFrameAmbe PFrame7100 PAmbeStream PSim.
Import ListNotations.
Local Open Scope Z_scope.

Lemma sim_alike : forall m n, sim false m n -> alike m n.
Proof. intros m n H. exact H. Qed.
Lemma before_errors : forall n r m, before (with_errors n r m) m.
Proof. intros n r []. apply sim_intro. cbv. repeat split. Qed.
Lemma before_sym : forall m n, before m n -> before n m.
Proof. intros m n H. unfold before, sim in *. congruence. Qed.
Lemma before_trans : forall m n p, before m n -> before n p -> before m p.
Proof. intros m n p H K. unfold before, sim in *. congruence. Qed.
Lemma before_idle : forall m, before (no_repeats m) m.
Proof. intros []. apply sim_intro. cbv. repeat split. Qed.
Lemma before_phase : forall x y m, before (set_un x (set_swn y m)) m.
Proof. intros x y []. apply sim_intro. cbv. repeat split. Qed.
Lemma before_turned : forall o hz c m, before (tone_turned o hz c m) m.
Proof. intros o hz c m. unfold tone_turned. destruct (o_tones o); [apply before_phase|reflexivity]. Qed.
Lemma idle_sim : forall m n, sim true m n -> sim false (no_repeats m) (no_repeats n).
Proof. intros m n H. apply sim_strong; [|reflexivity|reflexivity]. unfold no_repeats. auto with sim. Qed.
Lemma before_alike : forall m n, before m n -> alike_before m n.
Proof. intros m n H. exact H. Qed.

Lemma not_tone : forall o d cur prev e c p, is_bits 49 d -> ~ (tone2450 d /\ e < 6) -> ~ erasure2450 (pitch2450 d) -> forall bad, mbe_decodeAmbe2450ParmsInternal o d cur prev e = Ok (bad, c, p) -> bad = 0.
Proof.
  intros o d cur prev e c p Hd NT NE bad. unfold mbe_decodeAmbe2450ParmsInternal. destruct (tone_verified_ok d Hd) as (tv & -> & B). cbn [bind]. cbv zeta.
  rewrite (bits_msb_ok 49) by (exact Hd || (cbn; lia) || positions). cbn [bind]. fold (pitch2450 d).
  destruct (tv && (e <? 6)) eqn:ET. { exfalso. apply NT. apply andb_true_iff in ET as [A C]. split; [apply B, A|lia]. }
  pose proof (pitch2450_range d Hd) as R. unfold erasure2450 in NE.
  destruct ((120 <=? pitch2450 d) && (pitch2450 d <=? 123)) eqn:E1; [lia|]. destruct ((pitch2450 d =? 126) || (pitch2450 d =? 127)) eqn:E2; [lia|].
  intro H. apply bind_inv in H as ([c1 u] & _ & H). do 7 (apply bind_inv in H as (? & _ & H)). apply bind_inv in H as ([c2 p2] & _ & H). injection H. auto.
Qed.
Definition sane_pair (st st' : dstate) : Prop := sane_state st /\ sane_state st' /\ foreign (prev_of st) = false /\ sim_state st st'.
Lemma foreign_sim : forall m n, sim false m n -> foreign m = foreign n.
Proof. intros m n H. unfold foreign. align H. reflexivity. Qed.
Lemma erased_sim : forall m m' p p', sim true m m' -> sim false p p' -> sim false (erased m p) (erased m' p').
Proof.
  intros m m' p p' H K. unfold erased. align H. align K. reflexivity.
Qed.
Lemma speak_call : forall o a b cur cur' enh enh' uv t n mark, sim false cur cur' -> sim false enh enh' ->
  both out_call ('(aout, mark, st, t) <- ('(aout, st, t) <- ambe_speak o a b cur enh uv t ;; Ok (aout, mark, st, t)) ;; Ok (aout, eq_run n ++ mark ++ [0], st, t))
    ('(aout, mark, st, t) <- ('(aout, st, t) <- ambe_speak o a b cur' enh' uv t ;; Ok (aout, mark, st, t)) ;; Ok (aout, eq_run n ++ mark ++ [0], st, t)).
Proof.
  intros o a b cur cur' enh enh' uv t n mark H K. destruct (speak_sim o a b cur cur' enh enh' uv t H K) as [[[b1 [[c1 p1] e1]] t1] [[b2 [[c2 p2] e2]] t2] (-> & A & B & C & ->)|w]; cbn [bind]; constructor.
  cbn. split; [reflexivity|]. split; [reflexivity|]. split; [|reflexivity]. split; [eapply before_of, A|auto].
Qed.
Lemma reset_call : forall b c c' p p' e e' t n mark, wf_parms p -> wf_parms p' ->
  both out_call ('(aout, mark, st, t) <- ('(aout, st, t) <- ambe_noise_reset b (c, p, e) t ;; Ok (aout, mark, st, t)) ;; Ok (aout, eq_run n ++ mark ++ [0], st, t))
    ('(aout, mark, st, t) <- ('(aout, st, t) <- ambe_noise_reset b (c', p', e') t ;; Ok (aout, mark, st, t)) ;; Ok (aout, eq_run n ++ mark ++ [0], st, t)).
Proof.
  intros b c c' p p' e e' t n mark W W'. unfold ambe_noise_reset. destruct (mbe_synthesizeComfortNoisef b t) as [[b1 t1]|w]; cbn [bind]; [|constructor]. rewrite !init_ambe by assumption. cbn [bind]. constructor.
  cbn. split; [reflexivity|]. split; [reflexivity|]. split; [|reflexivity]. unfold sim_state, start_ambe. split; [apply before_of with false; reflexivity|]. split; reflexivity.
Qed.
Lemma repeat_sim : forall p p', sim false p p' -> both (sim false) (repeat_last p) (repeat_last p').
Proof.
  intros p p' H. unfold repeat_last, mbe_useLastMbeParms. cbv zeta. destruct (sim_repeats _ _ H) as [-> ->]. apply both_same. intros r. apply both_same. intros rc. constructor. auto with sim.
Qed.
Lemma decoded_wf : forall o d n r c p bad q p1, is_bits 49 d -> 0 <= n <= 100 -> sane c -> sane p -> ~ (tone2450 d /\ n < 6) -> ~ erasure2450 (pitch2450 d) ->
  mbe_decodeAmbe2450ParmsInternal o d (with_errors n r c) p n = Ok (bad, q, p1) -> wf_parms p1.
Proof.
  intros o d n r c p bad q p1 Hd Hn SC SP NT NE HD. assert (SW : sane (with_errors n r c)) by (apply sane_with_errors; assumption).
  destruct (ambe2450_accepted _ _ _ _ _ _ _ _ Hd (proj1 (proj1 SW)) NT NE HD) as [-> AC].
  assert (HW : pitch_in_range (w0_2450 (pitch2450 d))) by (apply w0_range; pose proof (pitch2450_range _ Hd); unfold erasure2450 in NE; lia).
  pose proof (harmonics2450_bits _ Hd NE) as HL. destruct (accepted_sane _ _ _ _ _ _ _ _ AC SW SP HL HW) as [_ S2]. apply S2.
Qed.
(* a frame that is no tone, from states of the same voice decoder *)
Lemma call_sim : forall o a cl st st' t, ambe_ok cl -> sane_state st -> sane_state st' -> foreign (prev_of st) = false -> sim_state st st' -> is_tone cl = false -> both out_call (do2450 o a cl st t) (do2450 o a cl st' t).
Proof.
  intros o a cl [[c p] e] [[c' p'] e'] t (Hd & Hn & LB) (SC & SP & SE) (SC' & SP' & SE') FO (HC & HP & HE) NT. cbn [prev_of] in FO. unfold do2450.
  assert (B : begin (c, p, e) = (c, p, e)) by (unfold begin; cbn [prev_of]; rewrite FO; reflexivity).
  assert (B' : begin (c', p', e') = (c', p', e')) by (unfold begin; cbn [prev_of]; rewrite <- (foreign_sim _ _ HP), FO; reflexivity).
  pose proof (entry_sim (ac_errors cl) (ambe_rate (p_errorRate p) (ac_errors cl)) _ _ HC) as EN. assert (RP : p_errorRate p' = p_errorRate p) by (align HP; reflexivity).
  assert (W0 : wf_parms (prev_of (c, p, e))) by apply SP. assert (W0' : wf_parms (prev_of (c', p', e'))) by apply SP'.
  unfold is_tone, kind_of in NT. destruct (kind2450 (ac_bits cl) (ac_errors cl)) as [| |hz|] eqn:K; [| |discriminate NT|].
  - unfold mbe_processAmbe2450Dataf_internal. rewrite !ensure_ok by (apply SP || apply SP'). cbn [bind]. rewrite B, B'. cbn [bind]. rewrite !entry_eq, RP.
    destruct (kind_cases (ac_bits cl) (ac_errors cl) Hd) as [(_ & _ & E)|[(_ & _ & E)|(NK & NE & _)]]; [destruct (tone_hz (tone_id (ac_bits cl))); congruence|congruence|].
    set (w := with_errors _ _ c) in *. set (w' := with_errors _ _ c') in *.
    assert (WP : forall bad q p1, mbe_decodeAmbe2450ParmsInternal o (ac_bits cl) w p (ac_errors cl) = Ok (bad, q, p1) -> wf_parms p1) by (intros bad q p1; apply decoded_wf; assumption).
    assert (WP' : forall bad q p1, mbe_decodeAmbe2450ParmsInternal o (ac_bits cl) w' p' (ac_errors cl) = Ok (bad, q, p1) -> wf_parms p1) by (intros bad q p1; apply decoded_wf; assumption).
    pose proof (decode_sim o (ac_bits cl) (ac_errors cl) w w' p p' EN HP) as D. pose proof (not_tone o (ac_bits cl) w p (ac_errors cl)) as NB. clearbody w w'.
    destruct D as [[[bad c1] p1] [[bad' c2] p2] (<- & S1 & S2)|u]; [|constructor]. pose proof (NB _ _ Hd NK NE _ eq_refl) as ->. specialize (WP _ _ _ eq_refl). specialize (WP' _ _ _ eq_refl). cbn [bind].
    change (0 =? 2) with false. change ((0 =? 3) || (0 =? 7)) with false. change (0 =? 0) with true. cbv iota.
    destruct (ambe2450_repeat_required (ac_errors cl) (ac_c0 cl) (ac_known cl)).
    + destruct (repeat_sim _ _ S2) as [m m' M|u]; cbn [bind]; [|constructor]. destruct (sim_repeats _ _ M) as [<- _]. destruct (p_repeat m <=? 3); [apply speak_call; assumption|apply (reset_call _ _ _ _ _ _ _ _ _ ([ch_R] ++ [ch_M])); assumption].
    + cbn [bind]. rewrite !clear_eq. change (p_repeat (no_repeats c1)) with 0. change (p_repeat (no_repeats c2)) with 0. change (0 <=? 3) with true. cbv iota. apply speak_call; [apply idle_sim; assumption|assumption].
  - rewrite (erasure_process _ _ _ _ _ _ _ _ _ _ _ _ _ Hd W0 B (proj1 SP) (proj1 SC) K), (erasure_process _ _ _ _ _ _ _ _ _ _ _ _ _ Hd W0' B' (proj1 SP') (proj1 SC') K). cbv zeta. rewrite RP.
    destruct (mbe_synthesizeComfortNoisef (ac_buf cl) t) as [[b t']|u]; cbn [bind]; constructor. unfold out_call, sim_state. split; [reflexivity|]. split; [reflexivity|]. split; [|reflexivity].
    pose proof (erased_sim _ _ _ _ EN HP) as Q. split; [eapply before_of, Q|auto].
  - rewrite (unknown_process _ _ _ _ _ _ _ _ _ _ _ _ _ Hd W0 B (proj1 SP) K), (unknown_process _ _ _ _ _ _ _ _ _ _ _ _ _ Hd W0' B' (proj1 SP') K). rewrite RP.
    destruct (sim_repeats _ _ HP) as [_ <-]. destruct (p_repeatCount p <? 4).
    + eapply both_bind; [apply speech_sim; eassumption|]. intros [[[b1 s1] e1] t1] [[[b2 s2] e2] t2] (-> & A1 & A2 & ->). constructor. unfold out_call, sim_state. split; [reflexivity|]. split; [reflexivity|]. split; [|reflexivity].
      split; [|auto]. eapply before_of, idle_sim, EN.
    + apply both_same. intros [b t']. constructor. unfold out_call, sim_state, start_ambe. split; [reflexivity|]. split; [reflexivity|]. split; [|reflexivity]. split; [apply before_of with false; reflexivity|]. split; reflexivity.
Qed.

Lemma sim_voice : forall st st', sim_state st st' -> same_voice st st'.
Proof. intros [[c p] e] [[c' p'] e'] (A & B & C). split; [apply before_alike, A|split; [exact B|exact C]]. Qed.
Definition out_one (cl : ambe_call) (x y : list f32 * list Z * dstate * tls) : Prop :=
  let '(b, s, st, t) := x in let '(b', s', st', t') := y in (is_tone cl = false -> b = b') /\ s = s' /\ sane_pair st st' /\ thread_ok t /\ t = t'.
Lemma one_sim : forall o a cl st st' t, ambe_ok cl -> thread_ok t -> sane_pair st st' -> both (out_one cl) (do2450 o a cl st t) (do2450 o a cl st' t).
Proof.
  intros o a cl st st' t HC TH (S1 & S2 & FO & SS).
  assert (FO' : foreign (prev_of st') = false). { destruct st as [[c p] e], st' as [[c' p'] e']. destruct SS as (_ & HP & _). cbn [prev_of] in *. rewrite <- (foreign_sim _ _ HP). exact FO. }
  assert (KEEP : forall b s x t1, do2450 o a cl st t = Ok (b, s, x, t1) -> sane_state x /\ thread_ok t1 /\ foreign (prev_of x) = false).
  { intros b s x t1 H. assert (H' : do_ambe R2450 o a cl st t = Ok (b, s, x, t1)) by exact H.
    destruct (ambe_step R2450 _ _ _ _ _ _ _ _ _ I HC S1 TH H') as (Q1 & Q2 & _). split; [exact Q1|]. split; [exact Q2|].
    destruct (begin_once R2450 _ _ _ _ _ _ _ _ _ I HC S1 TH H') as [Q3 _]. rewrite <- Q3. apply begin_ours. }
  assert (KEEP' : forall b s x t1, do2450 o a cl st' t = Ok (b, s, x, t1) -> sane_state x).
  { intros b s x t1 H. assert (H' : do_ambe R2450 o a cl st' t = Ok (b, s, x, t1)) by exact H. apply (ambe_step R2450 _ _ _ _ _ _ _ _ _ I HC S2 TH H'). }
  destruct (is_tone cl) eqn:T.
  - unfold is_tone in T. destruct (kind_of cl) as [| |hz|] eqn:K; try discriminate T. destruct HC as (Hd & Hn & LB).
    destruct st as [[c p] e], st' as [[c' p'] e']. destruct SS as (HC & HP & HE).
    pose proof (tone_process o a (ac_buf cl) (ac_errors cl) (ac_bits cl) (c, p, e) (ac_uv cl) (ac_c0 cl) (ac_known cl) t c p e hz Hd LB (proj1 (proj1 (proj2 S1))) (begin_own _ FO) K) as E1.
    pose proof (tone_process o a (ac_buf cl) (ac_errors cl) (ac_bits cl) (c', p', e') (ac_uv cl) (ac_c0 cl) (ac_known cl) t c' p' e' hz Hd LB (proj1 (proj1 (proj2 S2))) (begin_own _ FO') K) as E2.
    fold (do2450 o a cl (c, p, e) t) in E1. fold (do2450 o a cl (c', p', e') t) in E2. rewrite E1, E2. constructor. unfold out_one. split; [intro Q; unfold is_tone in Q; rewrite K in Q; discriminate Q|]. split; [reflexivity|].
    destruct (KEEP _ _ _ _ E1) as (Q1 & Q2 & Q3). pose proof (KEEP' _ _ _ _ E2) as Q4. split; [|auto]. split; [exact Q1|]. split; [exact Q4|]. split; [exact Q3|]. cbn [sim_state]. split; [|auto].
    eapply before_trans; [apply before_turned|]. eapply before_trans; [apply before_idle|]. eapply before_trans; [apply before_errors|]. apply before_sym.
    eapply before_trans; [apply before_turned|]. eapply before_trans; [apply before_idle|]. eapply before_trans; [apply before_errors|]. apply before_sym, HC.
  - destruct (call_sim o a cl st st' t HC S1 S2 FO SS T) as [[[[b s] x] t1] [[[b' s'] x'] t1'] (Q1 & Q2 & Q3 & Q4)|w]; [|constructor]. constructor. unfold out_one. split; [intros _; exact Q1|]. split; [exact Q2|].
    destruct (KEEP _ _ _ _ eq_refl) as (R1 & R2 & R3). pose proof (KEEP' _ _ _ _ eq_refl) as R4. split; [|auto]. split; [exact R1|]. auto.
Qed.
Definition out_all (cs : list ambe_call) (x y : list (list f32 * list Z) * dstate * tls) : Prop :=
  let '(r, st, t) := x in let '(r', st', t') := y in Forall same_result (combine cs (combine r r')) /\ length r = length cs /\ length r' = length cs /\ sane_pair st st' /\ thread_ok t /\ t = t'.
Lemma stream_sim : forall o a cs st st' t, Forall ambe_ok cs -> thread_ok t -> sane_pair st st' -> both (out_all cs) (ambe_stream (do2450 o a) cs st t) (ambe_stream (do2450 o a) cs st' t).
Proof.
  intros o a. induction cs as [|c cs IH]; intros st st' t HF TH SP; cbn [ambe_stream].
  - constructor. unfold out_all. cbn [combine length]. split; [constructor|]. split; [reflexivity|]. split; [reflexivity|]. auto.
  - inversion HF as [|x xs Hc HF']; subst. eapply both_bind; [apply one_sim; assumption|]. intros [[[b s] x] t1] [[[b' s'] x'] t1'] (A1 & A2 & A3 & A4 & <-).
    eapply both_bind; [apply IH; assumption|]. intros [[r y] t2] [[r' y'] t2'] (B1 & B2 & B3 & B4 & B5 & <-). constructor. unfold out_all. cbn [combine length]. split; [constructor; [split; assumption|exact B1]|].
    split; [congruence|]. split; [congruence|]. auto.
Qed.
Lemma sane_begin_pair : forall st, sane_state st -> sane_pair (begin st) (begin st).
Proof.
  intros st S. assert (SB : sane_state (begin st)) by (destruct (begin_cases st) as [[-> _]|[-> _]]; [exact S|apply sane_start_ambe]).
  split; [exact SB|]. split; [exact SB|]. split; [apply begin_ours|]. destruct (begin st) as [[c p] e]. split; [apply before_of with false; reflexivity|]. split; reflexivity.
Qed.
Lemma tone_between : forall o a tc cs st t, ambe_ok tc -> Forall ambe_ok cs -> cs <> [] -> is_tone tc = true -> sane_state st -> thread_ok t ->
  match ambe_stream (do2450 o a) (tc :: cs) st t, ambe_stream (do2450 o a) cs st t with
  | Ok (r, st1, t1), Ok (r', st2, t2) => Forall same_result (combine cs (combine (tl r) r')) /\ length r = S (length cs) /\ length r' = length cs /\ same_voice st1 st2 /\ t1 = t2
  | UB w, UB w' => w = w'
  | _, _ => False
  end.
Proof.
  intros o a tc cs st t HT HF NE IT SS TH.
  assert (E : ambe_stream (do2450 o a) cs st t = ambe_stream (do2450 o a) cs (begin st) t).
  { destruct cs as [|c cs]; [congruence|]. cbn [ambe_stream]. pose proof (begin_same R2450 o a c st t) as Q. cbn [do_ambe] in Q. rewrite Q; [reflexivity|]. destruct st as [[x y] z]. apply SS. }
  rewrite E. clear E. cbn [ambe_stream]. unfold is_tone in IT. destruct (kind_of tc) as [| |hz|] eqn:K; try discriminate IT. clear IT.
  assert (W : wf_parms (prev_of st)) by (destruct st as [[x y] z]; apply SS). destruct (sane_begin_pair st SS) as (SB & _ & FO & _). destruct (begin st) as [[c p] e] eqn:B.
  pose proof HT as (Hd & Hn & LB).
  pose proof (tone_process o a (ac_buf tc) (ac_errors tc) (ac_bits tc) st (ac_uv tc) (ac_c0 tc) (ac_known tc) t c p e hz Hd LB W B K) as E. fold (do2450 o a tc st t) in E.
  assert (S1 : sane_state (begin st)) by (rewrite B; exact SB). pose proof E as E'.
  destruct (step2450_ok o a tc st t _ _ _ _ c p e HT SS TH E' B) as (Q1 & Q2 & _). clear E'. rewrite E. cbn [bind]. clear E.
  set (m := tone_turned _ _ _ _) in *. assert (BM : before m c). { unfold m. eapply before_trans; [apply before_turned|]. eapply before_trans; [apply before_idle|]. apply before_errors. } clearbody m.
  assert (SP : sane_pair (m, p, e) (c, p, e)). { split; [exact Q1|]. split; [exact SB|]. split; [exact FO|]. split; [exact BM|]. split; reflexivity. }
  destruct (stream_sim o a cs _ _ t HF TH SP) as [[[r st1] t1] [[r' st2] t2] (A1 & A2 & A3 & (_ & _ & _ & A4) & _ & A6)|w]; cbn [bind]; [|reflexivity].
  cbn [tl length]. split; [exact A1|]. split; [congruence|]. split; [exact A3|]. split; [apply sim_voice, A4|exact A6].
Qed.
Lemma same_samples : forall cs r r', Forall same_result (combine cs (combine r r')) -> length r = length cs -> length r' = length cs -> Forall (fun c => is_tone c = false) cs -> r = r'.
Proof.
  induction cs as [|c cs IH]; intros [|[b s] r] [|[b' s'] r'] H L L' HN; cbn [length] in *; try discriminate; [reflexivity|]. cbn [combine] in H. inversion H as [|? ? E H']; subst. destruct E as [E1 E2]. subst s'. inversion HN as [|? ? N HN']; subst.
  rewrite (E2 N). f_equal. apply IH; [exact H'|congruence|congruence|exact HN'].
Qed.
Lemma tone_before_voice : forall o a tc cs st t, ambe_ok tc -> Forall ambe_ok cs -> cs <> [] -> is_tone tc = true -> Forall (fun c => is_tone c = false) cs -> sane_state st -> thread_ok t ->
  match ambe_stream (do2450 o a) (tc :: cs) st t, ambe_stream (do2450 o a) cs st t with
  | Ok (r, st1, t1), Ok (r', st2, t2) => tl r = r' /\ same_voice st1 st2 /\ t1 = t2
  | UB w, UB w' => w = w'
  | _, _ => False
  end.
Proof.
  intros o a tc cs st t HT HF NE IT NT SS TH. pose proof (tone_between o a tc cs st t HT HF NE IT SS TH) as Q.
  destruct (ambe_stream (do2450 o a) (tc :: cs) st t) as [[[r st1] t1]|w]; destruct (ambe_stream (do2450 o a) cs st t) as [[[r' st2] t2]|w']; try exact Q.
  destruct Q as (A & B & C & D & E). split; [|auto]. apply same_samples with cs; auto. destruct r; [discriminate|]. cbn in *. congruence.
Qed.
Lemma tone_case : Forall ambe_ok [digit; lost; digit; strange] /\ map is_tone [digit; lost; digit; strange] = [true; false; true; false] /\
  match ambe_stream (do2450 zero_oracle 1) [digit; lost; digit; strange] start_ambe thread0 with Ok (r, _, _) => length r = 4%nat | UB _ => False end.
Proof.
  split; [|split; [vm_compute; reflexivity|vm_compute; reflexivity]]. constructor; [apply digit_ok|constructor; [apply lost_ok|constructor; [apply digit_ok|constructor; [apply strange_ok|constructor]]]].
Qed.
