(* Streams of AMBE frames. *)
From Coq Require Import ZArith List Bool Lia Reals Lra.
From Verif Require Import Res F32 MFrame MParms MAdaptive MUnvoiced MSynth MImbe MAmbe SpecEcc SpecFrame SpecState SpecAdaptive SpecGen SpecOut SpecWola SpecImbe SpecAmbe SpecEnh SpecMachine SpecTone SpecAmbeMachine
  PBase PRun PLoop PState PFloat PFloat2 PArr PAdapt PGen POut PWola PSpeech PConv PImbe PAmbeDec PAmbeDec2 PEnh PNyq PMachine PStream PTone PAmbeMachine PFrameAmbe PFrame7100.
Import ListNotations.
Local Open Scope Z_scope.

(* ---- what any frame of either rate does to the stored history ---- *)
Record advance (n H : Z) (c p e : parms) (st' : dstate) : Prop := {
  ad_foreign : foreign p = false -> foreign (prev_of st') = false;
  ad_exact : ambe_threshold p -> ambe_threshold (prev_of st') /\ ambe_threshold (cur_of st');
  ad_rate : let R x := x = p_errorRate p \/ x = ambe_rate (p_errorRate p) n \/ x = S754_zero false in R (p_errorRate (prev_of st')) /\ R (p_errorRate (cur_of st'));
  ad_count : p_repeatCount p <= 3 -> p_repeatCount e <= 3 -> p_repeatCount (prev_of st') <= 3 /\ p_repeatCount (cur_of st') <= 3 /\ p_repeatCount (enh_of st') <= 3;
  ad_L : p_L (prev_of st') = p_L p \/ p_L (prev_of st') = H \/ p_L (prev_of st') <= 55
}.
Lemma foreign_exact : forall m, ambe_threshold m -> foreign m = false.
Proof. intros m H. unfold foreign. rewrite H. vm_compute. reflexivity. Qed.
Lemma start_exact : ambe_threshold ambe_initial. Proof. reflexivity. Qed.
Lemma start_advance : forall n H c p e, advance n H c p e start_ambe.
Proof.
  intros n H c p e. unfold start_ambe. constructor; cbn [prev_of cur_of enh_of].
  - intros _. apply foreign_exact, start_exact.
  - intros _. split; apply start_exact.
  - split; right; right; reflexivity.
  - intros _ _. change (p_repeatCount ambe_initial) with 0. lia.
  - right. right. change (p_L ambe_initial) with 15. lia.
Qed.
Lemma same_foreign : forall m m', p_mutingThreshold m' = p_mutingThreshold m -> foreign m' = foreign m.
Proof. intros m m' H. unfold foreign. rewrite H. reflexivity. Qed.
Lemma voice_advance : forall need n L w0 dg buf c p e t b str st', voice_step need n L w0 dg buf c p t b str st' -> advance n L c p e st'.
Proof.
  intros need n L w0 dg buf c p e t b str [[x y] z] H. unfold voice_step in H. destruct need; [destruct (Z.ltb_spec (p_repeatCount p) 3)|].
  - destruct H as (_ & K & S). unfold spoken, kept_model in *. cbn [prev_of cur_of enh_of] in *.
    destruct S as (_ & -> & _ & _ & SR & SM & SE). destruct K as ((_ & KL & _) & _ & KR & _ & _ & KE & KM & _).
    constructor; cbn [prev_of cur_of enh_of].
    + intros F. rewrite (same_foreign p y KM). exact F.
    + unfold ambe_threshold. rewrite SM, KM. intros Q. split; exact Q.
    + cbv zeta. rewrite SE, KE. auto.
    + intros _ _. rewrite SR, KR. lia.
    + auto.
  - destruct H as (_ & -> & _). apply start_advance.
  - destruct H as (_ & K & S). unfold spoken, fresh_model in *. cbn [prev_of cur_of enh_of] in *.
    destruct S as (_ & -> & _ & _ & SR & SM & SE). destruct K as (KL & _ & _ & _ & KR & _ & _ & KE & KM & _).
    constructor; cbn [prev_of cur_of enh_of].
    + intros _. apply foreign_exact, KM.
    + unfold ambe_threshold in *. rewrite SM, KM. intros _. split; reflexivity.
    + cbv zeta. rewrite SE, KE. auto.
    + intros _ _. rewrite SR, KR. lia.
    + auto.
Qed.
Lemma errors_threshold : forall n r c, p_mutingThreshold (with_errors n r c) = flit 96 1000 /\ p_errorRate (with_errors n r c) = r.
Proof. intros. split; reflexivity. Qed.
Lemma clear_fields : forall m, p_mutingThreshold (no_repeats m) = p_mutingThreshold m /\ p_errorRate (no_repeats m) = p_errorRate m /\ p_repeatCount (no_repeats m) = 0.
Proof. intros. repeat split; reflexivity. Qed.
Lemma phase_fields : forall x y m, p_mutingThreshold (set_un x (set_swn y m)) = p_mutingThreshold m /\ p_errorRate (set_un x (set_swn y m)) = p_errorRate m /\ p_repeatCount (set_un x (set_swn y m)) = p_repeatCount m.
Proof. intros. repeat split; reflexivity. Qed.
Lemma turned_fields : forall o hz c m, p_mutingThreshold (tone_turned o hz c m) = p_mutingThreshold m /\ p_errorRate (tone_turned o hz c m) = p_errorRate m /\ p_repeatCount (tone_turned o hz c m) = p_repeatCount m.
Proof. intros. unfold tone_turned. destruct (o_tones o); [apply phase_fields|auto]. Qed.
Lemma erased_fields : forall c p, p_mutingThreshold (erased c p) = p_mutingThreshold c /\ p_errorRate (erased c p) = p_errorRate c /\ p_repeatCount (erased c p) = 0 /\ p_L (erased c p) = 9.
Proof. intros. repeat split; reflexivity. Qed.
Lemma advance2450 : forall o cl c p e t b str st', step2450 o cl c p e t b str st' -> advance (ac_errors cl) (harmonics2450 (pitch2450 (ac_bits cl))) c p e st'.
Proof.
  intros o cl c p e t b str st' H. unfold step2450 in H. cbv zeta in H. destruct (kind_of cl) as [| |hz|].
  - eapply voice_advance. exact H.
  - destruct H as (_ & _ & ->). set (w := with_errors _ _ c). destruct (errors_threshold (ac_errors cl) (ambe_rate (p_errorRate p) (ac_errors cl)) c) as [W1 W2]. fold w in W1, W2. clearbody w.
    destruct (erased_fields w p) as (E1 & E2 & E3 & E4). constructor; cbn [prev_of cur_of enh_of]; unfold ambe_threshold; cbv zeta.
    + intros _. apply foreign_exact. unfold ambe_threshold. rewrite E1. exact W1.
    + intros _. rewrite E1. auto.
    + rewrite E2, W2. auto.
    + intros _ _. rewrite E3. lia.
    + right. right. rewrite E4. lia.
  - destruct H as (_ & _ & ->). set (w := with_errors _ _ c). destruct (errors_threshold (ac_errors cl) (ambe_rate (p_errorRate p) (ac_errors cl)) c) as [W1 W2]. fold w in W1, W2. clearbody w.
    destruct (clear_fields w) as (N1 & N2 & N3). set (v := no_repeats w) in *. clearbody v. destruct (turned_fields o hz c v) as (P1 & P2 & P3).
    constructor; cbn [prev_of cur_of enh_of]; unfold ambe_threshold; cbv zeta.
    + auto.
    + intros Q. rewrite P1, N1. auto.
    + rewrite P2, N2, W2. auto.
    + intros A B. rewrite P3, N3. lia.
    + auto.
  - destruct H as (_ & H). destruct (Z.ltb_spec (p_repeatCount p) 4); [|destruct H as (-> & _); apply start_advance].
    destruct st' as [[x y] z]. cbn [prev_of cur_of enh_of] in *. destruct H as (-> & -> & _ & _ & ER & _ & _).
    set (w := with_errors _ _ c). destruct (errors_threshold (ac_errors cl) (ambe_rate (p_errorRate p) (ac_errors cl)) c) as [W1 W2]. fold w in W1, W2. clearbody w.
    destruct (clear_fields w) as (N1 & N2 & N3).
    constructor; cbn [prev_of cur_of enh_of]; unfold ambe_threshold; cbv zeta.
    + auto.
    + intros Q. rewrite N1. auto.
    + rewrite N2, W2. auto.
    + intros A B. rewrite N3, ER. lia.
    + auto.
Qed.
Lemma advance2400 : forall o cl c p e t b str st', step2400 o cl c p e t b str st' -> advance (ac_errors cl) (harmonics2400 (pitch2400 (ac_bits cl))) c p e st'.
Proof.
  intros o cl c p e t b str st' H. unfold step2400 in H. cbv zeta in H. destruct (voice2400 cl).
  - eapply voice_advance. exact H.
  - destruct H as (_ & _ & ->). apply start_advance.
Qed.

(* ---- streams in general ---- *)
Lemma stream_inv : forall f (P : ambe_call -> Prop) (I : dstate -> tls -> Prop),
  (forall c st t b s st' t', P c -> I st t -> f c st t = Ok (b, s, st', t') -> I st' t') ->
  forall cs st t r st' t', Forall P cs -> I st t -> ambe_stream f cs st t = Ok (r, st', t') -> I st' t'.
Proof.
  intros f P I HI. induction cs as [|c cs IH]; intros st t r st' t' HF H0 H; cbn [ambe_stream] in H.
  - injection H as <- <- <-. exact H0.
  - inversion HF as [|x xs Hc HF']; subst. apply bind_inv in H as ([[[b s] st1] t1] & H1 & H). apply bind_inv in H as ([[r1 st2] t2] & H2 & H).
    injection H as <- <- <-. exact (IH _ _ _ _ _ HF' (HI _ _ _ _ _ _ _ Hc H0 H1) H2).
Qed.
Lemma stream_total : forall f (P : ambe_call -> Prop) (I : nat -> dstate -> tls -> Prop),
  (forall k c st t, P c -> I (S k) st t -> exists b s st' t', f c st t = Ok (b, s, st', t') /\ I k st' t') ->
  forall cs st t, Forall P cs -> I (length cs) st t -> exists r st' t', ambe_stream f cs st t = Ok (r, st', t').
Proof.
  intros f P I HI. induction cs as [|c cs IH]; intros st t HF H0; cbn [ambe_stream]; [eauto|].
  inversion HF as [|x xs Hc HF']; subst. destruct (HI _ _ _ _ Hc H0) as (b & s & st1 & t1 & -> & H1). cbn [bind].
  destruct (IH _ _ HF' H1) as (r & st2 & t2 & ->). cbn [bind]. eauto.
Qed.
(* the state the call works on *)
Lemma begin_cases : forall st, begin st = st /\ foreign (prev_of st) = false \/ begin st = start_ambe /\ foreign (prev_of st) = true.
Proof. intros st. unfold begin. destruct (foreign (prev_of st)); auto. Qed.
Lemma begin_own : forall st, foreign (prev_of st) = false -> begin st = st.
Proof. intros st H. unfold begin. rewrite H. reflexivity. Qed.
Lemma begin_ours : forall st, foreign (prev_of (begin st)) = false.
Proof. intros st. destruct (begin_cases st) as [[-> H]|[-> _]]; [exact H|apply foreign_exact, start_exact]. Qed.

Lemma ambe_step : forall r o a cl st t b str st' t', good_exp2 o r -> ambe_ok cl -> sane_state st -> thread_ok t -> do_ambe r o a cl st t = Ok (b, str, st', t') ->
  sane_state st' /\ thread_ok t' /\ length b = 160%nat /\ (t_rm0_valid t = false -> t_rm0_valid t' = false) /\
  p_amplitudeThreshold (enh_of st') <= Z.max 20480 (p_amplitudeThreshold (enh_of (begin st))) + 6000 /\
  advance (ac_errors cl) (harmonics r (ac_bits cl)) (cur_of (begin st)) (prev_of (begin st)) (enh_of (begin st)) st'.
Proof.
  intros r o a cl st t b str st' t' HX HC SS TH H. destruct (begin st) as [[c p] e] eqn:BG. cbn [cur_of prev_of enh_of]. destruct r; cbn [do_ambe harmonics good_exp2] in *.
  - destruct (step2450_ok _ _ _ _ _ _ _ _ _ _ _ _ HC SS TH H BG) as (A & B & C & D & E & F). repeat (split; [assumption|]). eapply advance2450. exact F.
  - assert (X : voice2400 cl = true -> exp2_close o (exponent2400 (pitch2400 (ac_bits cl)))).
    { intros V. apply HX. unfold voice2400 in V. destruct HC as (Hd & _). pose proof (pitch2400_range (ac_bits cl) Hd). lia. }
    destruct (step2400_ok _ _ _ _ _ _ _ _ _ _ _ _ HC SS TH X H BG) as (A & B & C & D & E & F). repeat (split; [assumption|]). eapply advance2400. exact F.
Qed.
Lemma settled_start : settled start_ambe.
Proof. split; [apply sane_start_ambe|]. split; [apply foreign_exact, start_exact|]. vm_compute. repeat split; discriminate. Qed.
Lemma settled_begin : forall st, sane_state st -> foreign (prev_of st) = true \/ settled st -> settled (begin st).
Proof.
  intros st SS [H|H]; [unfold begin; rewrite H; apply settled_start|]. unfold begin. rewrite (proj1 (proj2 H)). exact H.
Qed.
Lemma settled_step : forall r o a cl st t b str st' t', good_exp2 o r -> ambe_ok cl -> sane_state st -> thread_ok t -> foreign (prev_of st) = true \/ settled st -> do_ambe r o a cl st t = Ok (b, str, st', t') -> settled st' /\ thread_ok t'.
Proof.
  intros r o a cl st t b str st' t' HX HC SS TH HS H. destruct (settled_begin st SS HS) as (_ & F & C1 & C2 & C3).
  destruct (ambe_step _ _ _ _ _ _ _ _ _ _ HX HC SS TH H) as (S1 & T1 & _ & _ & _ & [AF _ _ AC _]).
  split; [|exact T1]. split; [exact S1|]. split; [apply AF, F|]. apply AC; assumption.
Qed.
Lemma settled_stream : forall r o a cs st t s st' t', good_exp2 o r -> Forall ambe_ok cs -> settled st -> thread_ok t -> ambe_stream (do_ambe r o a) cs st t = Ok (s, st', t') -> settled st' /\ thread_ok t'.
Proof.
  intros r o a cs st t s st' t' HX HF HS TH H. apply (stream_inv (do_ambe r o a) ambe_ok (fun st t => settled st /\ thread_ok t)) in H; auto.
  intros c0 st0 t0 b0 s0 st1 t1 Hc [S0 T0] D. eapply settled_step; [exact HX|exact Hc|apply S0|exact T0|right; exact S0|exact D].
Qed.
(* from either initialisation *)
Lemma settled_streams : forall r o a c cs st t s st' t', good_exp2 o r -> Forall ambe_ok (c :: cs) -> sane_state st -> foreign (prev_of st) = true -> thread_ok t -> ambe_stream (do_ambe r o a) (c :: cs) st t = Ok (s, st', t') -> settled st'.
Proof.
  intros r o a c cs st t s st' t' HX HF SS FO TH H. cbn [ambe_stream] in H. inversion HF as [|x xs Hc HF']; subst.
  apply bind_inv in H as ([[[b s1] st1] t1] & H1 & H). apply bind_inv in H as ([[r1 st2] t2] & H2 & H). injection H as <- <- <-.
  destruct (settled_step _ _ _ _ _ _ _ _ _ _ HX Hc SS TH (or_introl FO) H1) as [S1 T1]. eapply settled_stream; eassumption.
Qed.
(* ---- error rate ---- *)
Lemma ambe_rate_in : forall x n, rate_in (flit 128 1000) x -> 0 <= n <= 6 -> rate_in (flit 128 1000) (ambe_rate x n).
Proof.
  intros x n H Hn. apply (rate_step (flit 128 1000) (flit 12160001 100000000) (flit 63841 10000000) _ x n 6); try consts; try exact H; try lia.
  - R_val (flit 1064 1000000). lra.
  - R_val (flit 95 100). R_val (flit 128 1000). R_val (flit 12160001 100000000). intros; lra.
  - R_val (flit 1064 1000000). R_val (flit 63841 10000000). intros; lra.
  - R_val (flit 128 1000). R_val (flit 12160001 100000000). R_val (flit 63841 10000000). intros; lra.
Qed.
Lemma zero_rate : rate_in (flit 128 1000) (S754_zero false).
Proof. vm_compute. repeat split. Qed.
Lemma ambe_rate_stream : forall r o a cs st t s st' t', good_exp2 o r -> Forall ambe_ok cs -> Forall (fun c => ac_errors c <= 6) cs -> sane_state st -> thread_ok t ->
  rate_in (flit 128 1000) (p_errorRate (prev_of st)) -> rate_in (flit 128 1000) (p_errorRate (cur_of st)) -> ambe_stream (do_ambe r o a) cs st t = Ok (s, st', t') ->
  rate_in (flit 128 1000) (p_errorRate (prev_of st')) /\ rate_in (flit 128 1000) (p_errorRate (cur_of st')).
Proof.
  intros r o a cs st t s st' t' HX HF HE SS TH R1 R2 H.
  apply (stream_inv (do_ambe r o a) (fun c => ambe_ok c /\ ac_errors c <= 6) (fun st t => (sane_state st /\ thread_ok t) /\ rate_in (flit 128 1000) (p_errorRate (prev_of st)) /\ rate_in (flit 128 1000) (p_errorRate (cur_of st)))) in H;
    [apply H| |apply Forall_and; assumption|auto].
  clear - HX. intros c st t b s st' t' [Hc He] [[SS TH] [R1 R2]] D. destruct (ambe_step _ _ _ _ _ _ _ _ _ _ HX Hc SS TH D) as (S1 & T1 & _ & _ & _ & [_ _ AR _ _]).
  split; [auto|]. assert (RB : rate_in (flit 128 1000) (p_errorRate (prev_of (begin st)))) by (destruct (begin_cases st) as [[-> _]|[-> _]]; [exact R1|apply zero_rate]).
  destruct Hc as (_ & Hn & _). assert (RN : rate_in (flit 128 1000) (ambe_rate (p_errorRate (prev_of (begin st))) (ac_errors c))) by (apply ambe_rate_in; [exact RB|lia]).
  cbv zeta in AR. destruct AR as [A1 A2]. split; [destruct A1 as [Q|[Q|Q]]|destruct A2 as [Q|[Q|Q]]]; rewrite Q; auto using zero_rate.
Qed.
(* ---- no handoff stays pending ---- *)
Lemma ambe_handoff : forall r o a cs st t s st' t', good_exp2 o r -> Forall ambe_ok cs -> sane_state st -> thread_ok t -> t_rm0_valid t = false -> ambe_stream (do_ambe r o a) cs st t = Ok (s, st', t') -> t_rm0_valid t' = false.
Proof.
  intros r o a cs st t s st' t' HX HF SS TH HV H. apply (stream_inv (do_ambe r o a) ambe_ok (fun st t => sane_state st /\ thread_ok t /\ t_rm0_valid t = false)) in H; [apply H| |exact HF|auto].
  clear - HX. intros c st t b s st' t' Hc (SS & TH & V) D. destruct (ambe_step _ _ _ _ _ _ _ _ _ _ HX Hc SS TH D) as (S1 & T1 & _ & K & _). auto.
Qed.
(* ---- definedness ---- *)
Lemma ambe_defined : forall r o a cl st t, good_exp2 o r -> ambe_ok cl -> sane_state st -> thread_ok t -> threshold_room (enh_of (begin st)) ->
  (is_voice r cl -> usable_history (harmonics r (ac_bits cl)) (prev_of (begin st))) ->
  exists b str st' t', do_ambe r o a cl st t = Ok (b, str, st', t') /\ sane_state st' /\ thread_ok t' /\ length b = 160%nat.
Proof.
  intros r o a cl st t HX HC SS TH TR HU.
  assert (D : exists b str st' t', do_ambe r o a cl st t = Ok (b, str, st', t')).
  { destruct (begin st) as [[c p] e] eqn:BG. cbn [prev_of enh_of] in *. destruct r; cbn [do_ambe harmonics good_exp2 is_voice] in *.
    - eapply total2450; eassumption.
    - eapply total2400; try eassumption. intros V. split; [|apply HU, V]. apply HX. unfold voice2400 in V. destruct HC as (Hd & _). pose proof (pitch2400_range (ac_bits cl) Hd). lia. }
  destruct D as (b & s & st' & t' & D). destruct (ambe_step _ _ _ _ _ _ _ _ _ _ HX HC SS TH D) as (A & B & C & _). eauto 10.
Qed.
Lemma ambe_stream_total : forall r o a cs st t, good_exp2 o r -> Forall ambe_ok cs -> Forall (few_bands r) cs -> sane_state st -> thread_ok t -> p_L (prev_of st) <= 55 ->
  Z.max 20480 (p_amplitudeThreshold (enh_of st)) + 6000 * Z.of_nat (length cs) <= 2147483647 ->
  exists s st' t', ambe_stream (do_ambe r o a) cs st t = Ok (s, st', t').
Proof.
  intros r o a cs st t HX HF HL SS TH PL HT.
  apply (stream_total (do_ambe r o a) (fun c => ambe_ok c /\ few_bands r c) (fun k st t => sane_state st /\ thread_ok t /\ p_L (prev_of st) <= 55 /\ Z.max 20480 (p_amplitudeThreshold (enh_of st)) + 6000 * Z.of_nat k <= 2147483647));
    [|apply Forall_and; assumption|auto].
  clear - HX. intros k c st t [Hc Hl] (SS & TH & PL & HT). rewrite Nat2Z.inj_succ in HT.
  assert (PB : p_L (prev_of (begin st)) <= 55 /\ Z.max 20480 (p_amplitudeThreshold (enh_of (begin st))) <= Z.max 20480 (p_amplitudeThreshold (enh_of st))).
  { destruct (begin_cases st) as [[-> _]|[-> _]]; [split; [exact PL|lia]|]. change (p_L (prev_of start_ambe)) with 15. change (p_amplitudeThreshold (enh_of start_ambe)) with 20480. lia. }
  destruct PB as [PB TB]. pose proof (sane_begin st SS) as SB.
  destruct (ambe_defined r o a c st t HX Hc SS TH) as (b & s & st' & t' & D & S1 & T1 & _).
  { unfold threshold_room. lia. }
  { intros _. apply usable_55; [|exact PB]. destruct (begin st) as [[x y] z]. apply SB. }
  exists b, s, st', t'. split; [exact D|]. split; [exact S1|]. split; [exact T1|].
  assert (Q : p_L (prev_of st') <= 55 /\ p_amplitudeThreshold (enh_of st') <= Z.max 20480 (p_amplitudeThreshold (enh_of (begin st))) + 6000); [|lia].
  destruct (begin st) as [[x y] z] eqn:BG. cbn [prev_of enh_of cur_of] in *. destruct r; cbn [do_ambe harmonics good_exp2 is_voice] in *; unfold few_bands in Hl; cbn [is_voice harmonics] in Hl.
  - destruct (step2450_ok _ _ _ _ _ _ _ _ _ _ _ _ Hc SS TH D BG) as (_ & _ & _ & _ & E & F). split; [|exact E]. 
    destruct (kind_of c) eqn:K.
    + destruct (advance2450 _ _ _ _ _ _ _ _ _ F) as [_ _ _ _ [Q|[Q|Q]]]; [rewrite Q; exact PB|rewrite Q; apply Hl; reflexivity|exact Q].
    + unfold step2450 in F. rewrite K in F. cbv zeta in F. destruct F as (_ & _ & ->). cbn [prev_of]. change (9 <= 55). lia.
    + unfold step2450 in F. rewrite K in F. cbv zeta in F. destruct F as (_ & _ & ->). cbn [prev_of]. exact PB.
    + unfold step2450 in F. rewrite K in F. cbv zeta in F. destruct F as (_ & F). destruct (_ <? _); [destruct F as (-> & _); exact PB|destruct F as (-> & _); change (15 <= 55); lia].
  - assert (X : voice2400 c = true -> exp2_close o (exponent2400 (pitch2400 (ac_bits c)))).
    { intros V. apply HX. unfold voice2400 in V. destruct Hc as (Hd & _). pose proof (pitch2400_range (ac_bits c) Hd). lia. }
    destruct (step2400_ok _ _ _ _ _ _ _ _ _ _ _ _ Hc SS TH X D BG) as (_ & _ & _ & _ & E & F). split; [|exact E]. destruct (voice2400 c) eqn:K.
    + destruct (advance2400 _ _ _ _ _ _ _ _ _ F) as [_ _ _ _ [Q|[Q|Q]]]; [rewrite Q; exact PB|rewrite Q; apply Hl; reflexivity|exact Q].
    + unfold step2400 in F. rewrite K in F. cbv zeta in F. destruct F as (_ & _ & ->). change (15 <= 55). lia.
Qed.
(* ---- switching codecs ---- *)
Lemma begin_same : forall r o a cl st t, wf_parms (prev_of st) -> do_ambe r o a cl st t = do_ambe r o a cl (begin st) t.
Proof.
  intros r o a cl st t W. destruct (begin_cases st) as [[-> _]|[E _]]; [reflexivity|].
  assert (E2 : begin start_ambe = start_ambe) by (apply begin_own, foreign_exact, start_exact). assert (W2 : wf_parms (prev_of start_ambe)) by apply ambe_initial_wf.
  rewrite E. destruct st as [[x y] z], start_ambe as [[c p] e]. cbn [prev_of] in W, W2.
  destruct r; cbn [do_ambe]; unfold do2450, do2400, mbe_processAmbe2450Dataf_internal, mbe_processAmbe2400Dataf; rewrite !ensure_ok by assumption; rewrite E, E2; reflexivity.
Qed.
Lemma begin_once : forall r o a cl st t b str st' t', good_exp2 o r -> ambe_ok cl -> sane_state st -> thread_ok t -> do_ambe r o a cl st t = Ok (b, str, st', t') ->
  begin st' = st' /\ (foreign (prev_of st) = true \/ ambe_threshold (prev_of st) -> ambe_threshold (prev_of st') /\ ambe_threshold (cur_of st')).
Proof.
  intros r o a cl st t b str st' t' HX HC SS TH H. destruct (ambe_step _ _ _ _ _ _ _ _ _ _ HX HC SS TH H) as (_ & _ & _ & _ & _ & [AF AE _ _ _]).
  split; [apply begin_own, AF, begin_ours|]. intros Q. apply AE. destruct (begin_cases st) as [[-> F]|[-> _]]; [|apply start_exact]. destruct Q as [Q|Q]; [congruence|exact Q].
Qed.
Lemma imbe_foreign : forall st, imbe_threshold st -> foreign (prev_of st) = true.
Proof. intros st H. unfold foreign. rewrite H. vm_compute. reflexivity. Qed.
(* ---- concealment ---- *)
Lemma ambe_voice : forall r o a cl st t b str st' t', good_exp2 o r -> ambe_ok cl -> sane_state st -> thread_ok t -> is_voice r cl -> do_ambe r o a cl st t = Ok (b, str, st', t') ->
  exists L w0 dg, voice_step (needs r cl) (ac_errors cl) L w0 dg (ac_buf cl) (cur_of (begin st)) (prev_of (begin st)) t b str st'.
Proof.
  intros r o a cl st t b str st' t' HX HC SS TH HV H. destruct (begin st) as [[c p] e] eqn:BG. cbn [cur_of prev_of]. destruct r; cbn [do_ambe needs is_voice good_exp2] in *.
  - destruct (step2450_ok _ _ _ _ _ _ _ _ _ _ _ _ HC SS TH H BG) as (_ & _ & _ & _ & _ & F). unfold step2450 in F. rewrite HV in F. eauto.
  - assert (X : voice2400 cl = true -> exp2_close o (exponent2400 (pitch2400 (ac_bits cl)))).
    { intros V. apply HX. unfold voice2400 in V. destruct HC as (Hd & _). pose proof (pitch2400_range (ac_bits cl) Hd). lia. }
    destruct (step2400_ok _ _ _ _ _ _ _ _ _ _ _ _ HC SS TH X H BG) as (_ & _ & _ & _ & _ & F). unfold step2400 in F. rewrite HV in F. eauto.
Qed.
Lemma same_bands_refl : forall m, same_bands m m.
Proof. intros m. unfold same_bands. repeat (split; [reflexivity|]). auto. Qed.
Lemma same_bands_trans : forall m1 m2 m3, same_bands m1 m2 -> same_bands m2 m3 -> same_bands m1 m3.
Proof.
  intros m1 m2 m3 (A1 & A2 & A3 & A4 & A5 & A6) (B1 & B2 & B3 & B4 & B5 & B6). unfold same_bands.
  split; [congruence|]. split; [congruence|]. split; [congruence|]. split; [congruence|]. split; [congruence|].
  intros l Hl. destruct (A6 l Hl) as [C1 C2]. destruct (B6 l ltac:(rewrite A2; exact Hl)) as [D1 D2]. split; congruence.
Qed.
Lemma conceal_run : forall r o a cs st t s st' t', good_exp2 o r -> Forall (concealed r) cs -> sane_state st -> thread_ok t -> foreign (prev_of st) = false ->
  p_repeatCount (prev_of st) + Z.of_nat (length cs) <= 3 -> ambe_stream (do_ambe r o a) cs st t = Ok (s, st', t') ->
  map snd s = map (fun c => status (ac_errors c) [82]) cs /\ same_bands (prev_of st) (prev_of st') /\ p_repeatCount (prev_of st') = p_repeatCount (prev_of st) + Z.of_nat (length cs) /\
  sane_state st' /\ thread_ok t' /\ foreign (prev_of st') = false.
Proof.
  intros r o a cs. induction cs as [|c cs IH]; intros st t s st' t' HX HF SS TH FO HN H; cbn [ambe_stream] in H.
  - injection H as <- <- <-. cbn [length map]. change (Z.of_nat 0) with 0. rewrite Z.add_0_r. repeat (split; [first [reflexivity|apply same_bands_refl|assumption]|]). exact FO.
  - inversion HF as [|x xs (Hc & Hv & Hn) HF']; subst. apply bind_inv in H as ([[[b s1] st1] t1] & H1 & H). apply bind_inv in H as ([[r1 st2] t2] & H2 & H). injection H as <- <- <-.
    cbn [length] in *. rewrite Nat2Z.inj_succ in *.
    destruct (ambe_voice _ _ _ _ _ _ _ _ _ _ HX Hc SS TH Hv H1) as (L & w0 & dg & V). rewrite (begin_own st FO) in V. unfold voice_step in V. rewrite Hn in V.
    destruct (Z.ltb_spec (p_repeatCount (prev_of st)) 3); [|lia]. destruct V as (-> & (SB & _ & RC & _) & _).
    destruct (ambe_step _ _ _ _ _ _ _ _ _ _ HX Hc SS TH H1) as (S1 & T1 & _ & _ & _ & [AF _ _ _ _]). rewrite (begin_own st FO) in AF.
    destruct (IH st1 t1 r1 st2 t2 HX HF' S1 T1 (AF FO) ltac:(lia) H2) as (E1 & E2 & E3 & E4 & E5 & E6).
    split; [cbn [map snd]; rewrite E1; reflexivity|]. split; [exact (same_bands_trans _ _ _ SB E2)|]. split; [lia|]. auto.
Qed.
Lemma conceal_last : forall r o a cl st t b str st' t', good_exp2 o r -> concealed r cl -> sane_state st -> thread_ok t -> foreign (prev_of st) = false -> p_repeatCount (prev_of st) = 3 ->
  do_ambe r o a cl st t = Ok (b, str, st', t') -> str = status (ac_errors cl) [82; 77] /\ st' = start_ambe /\ noise (ac_buf cl) t b.
Proof.
  intros r o a cl st t b str st' t' HX (Hc & Hv & Hn) SS TH FO RC H. destruct (ambe_voice _ _ _ _ _ _ _ _ _ _ HX Hc SS TH Hv H) as (L & w0 & dg & V).
  rewrite (begin_own st FO) in V. unfold voice_step in V. rewrite Hn, RC in V. exact V.
Qed.
Lemma stream_app : forall f cs ds st t s st' t', ambe_stream f (cs ++ ds) st t = Ok (s, st', t') ->
  exists s1 s2 st1 t1, ambe_stream f cs st t = Ok (s1, st1, t1) /\ ambe_stream f ds st1 t1 = Ok (s2, st', t') /\ s = s1 ++ s2.
Proof.
  induction cs as [|c cs IH]; intros ds st t s st' t' H; cbn [ambe_stream app] in *; [exists [], s, st, t; auto|].
  apply bind_inv in H as ([[[b x] st1] t1] & H1 & H). apply bind_inv in H as ([[r1 st2] t2] & H2 & H). injection H as <- <- <-.
  destruct (IH _ _ _ _ _ _ H2) as (s1 & s2 & st3 & t3 & E1 & E2 & ->). rewrite H1. cbn [bind]. rewrite E1. cbn [bind]. exists ((b, x) :: s1), s2, st3, t3. auto.
Qed.
Lemma conceal_four : forall r o a c1 c2 c3 c4 st t s st' t', good_exp2 o r -> Forall (concealed r) [c1; c2; c3; c4] -> sane_state st -> thread_ok t -> foreign (prev_of st) = false ->
  p_repeatCount (prev_of st) = 0 -> ambe_stream (do_ambe r o a) [c1; c2; c3; c4] st t = Ok (s, st', t') ->
  map snd s = [status (ac_errors c1) [82]; status (ac_errors c2) [82]; status (ac_errors c3) [82]; status (ac_errors c4) [82; 77]] /\ st' = start_ambe /\
  exists t3 b4 s123, s = s123 ++ [(b4, status (ac_errors c4) [82; 77])] /\ noise (ac_buf c4) t3 b4.
Proof.
  intros r o a c1 c2 c3 c4 st t s st' t' HX HF SS TH FO RC H. change [c1; c2; c3; c4] with ([c1; c2; c3] ++ [c4]) in *. apply Forall_app in HF as [HF H4]. inversion H4 as [|x xs Hc _]; subst.
  apply stream_app in H as (s1 & s2 & st1 & t1 & E1 & E2 & ->). destruct (conceal_run r o a _ _ _ _ _ _ HX HF SS TH FO ltac:(cbn [length]; lia) E1) as (M & _ & R & S1 & T1 & F1).
  cbn [ambe_stream] in E2. apply bind_inv in E2 as ([[[b x] st2] t2] & H2 & E2). cbn [bind] in E2. injection E2 as <- <- <-.
  destruct (conceal_last _ _ _ _ _ _ _ _ _ _ HX Hc S1 T1 F1 ltac:(rewrite R, RC; reflexivity) H2) as (-> & -> & N).
  split; [rewrite map_app, M; reflexivity|]. split; [reflexivity|]. exists t1, b, s1. auto.
Qed.
(* ---- 2450 frames from the air ---- *)
Lemma marked_status : forall n m, marked 82 (status n m) = marked 82 m.
Proof.
  intros n m. unfold marked, status. rewrite !existsb_app. cbn [existsb]. change (82 =? 0) with false. rewrite !orb_false_r.
  destruct (existsb (Z.eqb 82) (repeat 61 (Z.to_nat n))) eqn:E; [|reflexivity].
  apply existsb_exists in E as (x & Hx & E). apply repeat_spec in Hx. subst. discriminate.
Qed.
Lemma frame_repeats : forall o a aout fr d0 st uv t out, ambe_frame fr -> length d0 = 49%nat -> length aout = 160%nat -> sane_state st -> thread_ok t ->
  mbe_processAmbe3600x2450Framef o a aout fr d0 st uv t = Ok out ->
  exists r0 r1 r2 r3 cw0 cw1, fr = [r0; r1; r2; r3] /\ golay_word cw0 /\ hdist (skipn 1 r0) cw0 <= 3 /\
  (let c1 := scramble (keybits (val (skipn 11 cw0)) 23) (firstn 23 r1) in golay_word cw1 /\ hdist c1 cw1 <= 3 /\
   fo_errs out <= 3 /\ (kind2450 (fo_d out) (fo_errs2 out) = Voice ->
     (marked 82 (fo_str out) = true <-> hdist (skipn 12 r0) (skipn 11 cw0) = 3 /\ hdist (skipn 11 c1) (skipn 11 cw1) = 3))).
Proof.
  intros o a aout fr d0 st uv t out HF L0 LA SS TH H. unfold mbe_processAmbe3600x2450Framef in H.
  destruct (ambe_bounds fr d0 HF L0) as (frB & eB & e2B & dB & EB & BD & _).
  destruct (ambe_frame_full fr d0 HF L0) as (r0 & r1 & r2 & r3 & fr' & errs & errs2 & d & cw0 & c1 & cw1 & -> & E & W0 & D0 & _ & -> & W1 & D1 & _ & _ & H3 & HA & HB & HS & HS3).
  rewrite E in EB, H. assert (dB = d) by congruence. subst dB. clear EB frB eB e2B. cbn [bind] in H. apply bind_inv in H as ([[[b s] st'] t'] & HP & H).
  assert (EO : out = mkframe_out b errs errs2 s fr' d st' t') by congruence. clear H E. subst out. cbn [fo_errs fo_d fo_errs2 fo_str].
  exists r0, r1, r2, r3, cw0, cw1. split; [reflexivity|]. split; [exact W0|]. split; [exact D0|]. cbv zeta. split; [exact W1|]. split; [exact D1|]. split; [lia|].
  intros K. set (cl := mkambe_call d errs2 errs true uv aout). assert (HC : ambe_ok cl) by (split; [exact BD|split; [cbn; lia|exact LA]]).
  destruct (ambe_voice R2450 o a cl st t b s st' t' I HC SS TH K HP) as (L & w0 & dg & V). unfold voice_step in V.
  assert (N : needs R2450 cl = true <-> hdist (skipn 12 r0) (skipn 11 cw0) = 3 /\ hdist (skipn 11 (scramble (keybits (val (skipn 11 cw0)) 23) (firstn 23 r1))) (skipn 11 cw1) = 3).
  { unfold needs, needs_of, needs2450, cl, context. cbn [ac_errors ac_c0 ac_known]. set (h0 := hdist (skipn 12 r0) _) in *. set (h1 := hdist (skipn 11 (scramble _ _)) _) in *.
    assert (P0 : 0 <= h0) by apply hdist_nonneg. rewrite orb_true_iff, andb_true_iff, !Z.leb_le. split; [intros [Q|[Q1 Q2]]; [lia|]|intros [Q1 Q2]; right].
    - destruct (Z_le_gt_dec h0 0); [specialize (HB ltac:(lia)); lia|specialize (HA ltac:(lia)); lia].
    - specialize (HA ltac:(lia)). lia. }
  rewrite <- N. destruct (needs R2450 cl).
  - split; [reflexivity|intros _]. destruct (_ <? 3); destruct V as (-> & _); cbn [ac_errors cl]; rewrite marked_status; reflexivity.
  - destruct V as (-> & _). rewrite marked_status. split; discriminate.
Qed.
(* ---- the two ways out of the defined behaviour ---- *)
Lemma plain_call : forall r o a cl st t, good_exp2 o r -> ambe_ok cl -> sane_state st -> foreign (prev_of st) = false -> is_voice r cl -> needs r cl = false ->
  usable_history (harmonics r (ac_bits cl)) (prev_of st) ->
  exists m, sane m /\ (p_L m = harmonics r (ac_bits cl) /\ p_errorRate m = ambe_rate (p_errorRate (prev_of st)) (ac_errors cl) /\ p_errorCountTotal m = ac_errors cl /\ p_repeatCount m = 0 /\ ambe_threshold m) /\
  do_ambe r o a cl st t = ('(b, st', t') <- ambe_speak o a (ac_buf cl) m (enh_of st) (ac_uv cl) t ;; Ok (b, status (ac_errors cl) [], st', t')).
Proof.
  intros r o a cl st t HX (Hd & Hn & LB) SS FO HV HN HU. pose proof (begin_own st FO) as BG. destruct st as [[c p] e]. cbn [cur_of prev_of enh_of] in *.
  pose proof SS as SS'. destruct SS' as (SC & SP & SE).
  assert (SW : sane (with_errors (ac_errors cl) (ambe_rate (p_errorRate p) (ac_errors cl)) c)) by (apply sane_with_errors; assumption).
  assert (FM : forall L w0 g v c1 p1, ambe_accepted L w0 g v (with_errors (ac_errors cl) (ambe_rate (p_errorRate p) (ac_errors cl)) c) p c1 p1 -> let m := no_repeats c1 in
    p_L m = L /\ p_errorRate m = ambe_rate (p_errorRate p) (ac_errors cl) /\ p_errorCountTotal m = ac_errors cl /\ p_repeatCount m = 0 /\ ambe_threshold m).
  { intros L w0 g v c1 p1 AC. apply fresh_of in AC. cbv zeta. set (m := no_repeats c1) in *. clearbody m. unfold fresh_model in AC. tauto. }
  destruct r; cbn [do_ambe good_exp2 is_voice needs harmonics] in *.
  - unfold kind_of in HV. destruct (kind_cases (ac_bits cl) (ac_errors cl) Hd) as [(T & N & E)|[(T & N & E)|(NT & NE & E)]]; [destruct (tone_hz (tone_id (ac_bits cl))); congruence|congruence|].
    destruct (ambe2450_total o (ac_bits cl) (with_errors (ac_errors cl) (ambe_rate (p_errorRate p) (ac_errors cl)) c) p (ac_errors cl) Hd (proj1 SW) NT NE (usable_prev_ok _ _ HU)) as (bad & c1 & p1 & HD).
    destruct (ambe2450_accepted _ _ _ _ _ _ _ _ Hd (proj1 (proj1 SW)) NT NE HD) as [-> AC].
    assert (HW : pitch_in_range (w0_2450 (pitch2450 (ac_bits cl)))) by (apply w0_range; pose proof (pitch2450_range _ Hd); unfold erasure2450 in NE; lia).
    pose proof (harmonics2450_bits _ Hd NE) as HL. destruct (accepted_sane _ _ _ _ _ _ _ _ AC SW SP HL HW) as [S1 S2].
    assert (RR : p_repeat p1 = p_repeatCount p1 /\ 0 <= p_repeatCount p1 <= 4) by (split; apply S2).
    exists (no_repeats c1). split; [exact S1|]. split; [apply (FM _ _ _ _ _ _ AC)|].
    unfold do2450. rewrite (voice2450 _ _ _ _ _ (c, p, e) _ _ _ _ _ _ _ _ _ (proj1 SP) BG HD (proj1 S2)) by lia. unfold needs_of in HN. rewrite HN. reflexivity.
  - assert (HB : pitch2400 (ac_bits cl) < 126) by (unfold voice2400 in HV; lia). pose proof (pitch2400_range _ Hd) as PR. specialize (HX (pitch2400 (ac_bits cl)) ltac:(lia)).
    destruct (ambe2400_total o (ac_bits cl) (with_errors (ac_errors cl) (ambe_rate (p_errorRate p) (ac_errors cl)) c) p Hd (proj1 SW) HB HX (usable_prev_ok _ _ HU)) as (bad & c1 & p1 & HD).
    destruct (ambe2400_accepted _ _ _ _ _ _ _ Hd (proj1 (proj1 SW)) HB HX HD) as [-> AC].
    assert (HW : pitch_in_range (radians (exp2f o (exponent2400 (pitch2400 (ac_bits cl)))))) by (apply f0_range; [lia|exact HX]).
    pose proof (harmonics2400_range _ Hd HB) as HL. destruct (accepted_sane _ _ _ _ _ _ _ _ AC SW SP HL HW) as [S1 S2].
    assert (RR : p_repeat p1 = p_repeatCount p1 /\ 0 <= p_repeatCount p1 <= 4) by (split; apply S2).
    exists (no_repeats c1). split; [exact S1|]. split; [apply (FM _ _ _ _ _ _ AC)|].
    unfold do2400. rewrite (voice2400_eq _ _ _ _ _ _ (c, p, e) _ _ _ _ _ _ _ (proj1 SP) BG HD (proj1 S2)) by lia. unfold needs2400 in HN. rewrite HN. reflexivity.
Qed.

Lemma speak_overflow : forall o a aout m enh uvq t w, sane m -> smoothing_Tm (p_errorRate m) (p_errorCountTotal m) (p_amplitudeThreshold enh) = UB w -> ambe_speak o a aout m enh uvq t = UB w.
Proof.
  intros o a aout m enh uvq t w SN HT. unfold ambe_speak. cbv zeta. destruct (enhance_ok o a m t) as (e1 & xs & HE & EN); [apply SN|apply SN|]. rewrite HE. cbn [bind].
  destruct EN as (E1 & (E2 & _) & _). rewrite (speech_overflow o aout a e1 enh uvq _ w); [reflexivity| | |].
  - unfold wf_parms in *. rewrite E1. fields. rewrite E2. apply SN.
  - rewrite E1. apply SN.
  - rewrite E1. fields. exact HT.
Qed.
(* one error a frame keeps the rate above 0.5 %: 5700 more every frame *)
Definition busy (x : f32) : Prop := rate_in (flit 128 1000) x /\ fgt x (flit 5 1000) = true.
Lemma busy_step : forall x, busy x -> busy (ambe_rate x 1).
Proof.
  intros x [R B]. split; [apply ambe_rate_in; [exact R|lia]|]. destruct R as (V & F & L & U).
  assert (FX : ff x) by (split; [exact V|destruct x; cbn in F |- *; tauto]). assert (F5 : ff (flit 5 1000)) by consts. assert (FH : ff (flit 128 1000)) by consts.
  apply fle_true in U; [|assumption..]. change (fgt x (flit 5 1000)) with (flt (flit 5 1000) x) in B. apply flt_true in B; [|assumption..].
  assert (F95 : ff (flit 95 100)) by consts. assert (FK : ff (flit 1064 1000000)) by consts. destruct (of_Z_R 1 ltac:(lia)) as [FN RN].
  assert (FA : ff (flit 4749 1000000)) by consts. assert (FB : ff (flit 1063 1000000)) by consts. assert (F1 : ff (flit 1 1)) by consts. assert (F58 : ff (flit 58 10000)) by consts. assert (F2 : ff (flit 2 1)) by consts.
  revert B U. R_val (flit 5 1000). R_val (flit 128 1000). intros B U.
  destruct (fmul_b (flit 95 100) x (flit 4749 1000000) (flit 1 1) F95 FX FA F1) as (G1 & G2 & _).
  { R_val (flit 95 100). R_val (flit 4749 1000000). R_val (flit 1 1). intros. nra. }
  destruct (fmul_b (flit 1064 1000000) (f_of_Z 1) (flit 1063 1000000) (flit 1 1) FK FN FB F1) as (G3 & G4 & _).
  { rewrite RN. R_val (flit 1064 1000000). R_val (flit 1063 1000000). R_val (flit 1 1). intros. lra. }
  destruct (fadd_b _ _ (flit 58 10000) (flit 2 1) G1 G3 F58 F2) as (G5 & G6 & _).
  { revert G2 G4. R_val (flit 4749 1000000). R_val (flit 1063 1000000). R_val (flit 1 1). R_val (flit 58 10000). R_val (flit 2 1). intros. lra. }
  change (fgt (ambe_rate x 1) (flit 5 1000)) with (flt (flit 5 1000) (ambe_rate x 1)). apply flt_true; [exact F5|exact G5|]. revert G6. R_val (flit 58 10000). R_val (flit 5 1000). intros.
  unfold ambe_rate. lra.
Qed.
Lemma Tm_one : forall rate T, busy rate -> 0 < T -> smoothing_Tm rate 1 T = to_int (5700 + T).
Proof.
  intros rate T [(V & F & _) HR] HT. unfold smoothing_Tm. cbv zeta. change DEFAULT_AMPLITUDE_THRESHOLD with 20480. change AMPLITUDE_PENALTY with 300. change AMPLITUDE_BASE with 6000.
  assert (E : fle rate LOW = false).
  { assert (FX : ff rate) by (split; [exact V|destruct rate; cbn in F |- *; tauto]). change LOW with (flit 5 1000). assert (F5 : ff (flit 5 1000)) by consts.
    apply fle_false; [assumption..|]. apply flt_true; assumption. }
  rewrite E. cbn [andb]. change (to_int (300 * 1)) with (Ok 300). cbn [bind]. change (to_int (6000 - 300)) with (Ok 5700). cbn [bind].
  destruct (Z.leb_spec T 0); [lia|reflexivity].
Qed.
Lemma one_no_need : forall r d uv buf, needs r (mkambe_call d 1 0 true uv buf) = false.
Proof. intros [] d uv buf; reflexivity. Qed.
Lemma ambe_overflow : forall r o a d uv buf k st t, good_exp2 o r -> is_bits 49 d -> length buf = 160%nat -> is_voice r (mkambe_call d 1 0 true uv buf) -> harmonics r d <= 55 ->
  sane_state st -> thread_ok t -> foreign (prev_of st) = false -> p_L (prev_of st) <= 55 -> busy (ambe_rate (p_errorRate (prev_of st)) 1) ->
  0 < p_amplitudeThreshold (enh_of st) <= 2147483647 -> 2147483647 < p_amplitudeThreshold (enh_of st) + 5700 * Z.of_nat k ->
  ambe_stream (do_ambe r o a) (repeat (mkambe_call d 1 0 true uv buf) k) st t = UB Overflow.
Proof.
  intros r o a d uv buf k. induction k as [|k IH]; intros st t HX Hd LB HV HL SS TH FO PL BU HT HK; [cbn in HK; lia|]. rewrite Nat2Z.inj_succ in HK. cbn [repeat ambe_stream].
  set (cl := mkambe_call d 1 0 true uv buf) in *. assert (HC : ambe_ok cl) by (split; [exact Hd|split; [cbn; lia|exact LB]]).
  assert (U : usable_history (harmonics r (ac_bits cl)) (prev_of st)) by (destruct st as [[x y] z]; apply usable_55; [apply SS|exact PL]).
  destruct (plain_call r o a cl st t HX HC SS FO HV (one_no_need r d uv buf) U) as (m & SM & (ML & MR & ME & MC & MT) & D).
  change (ac_errors cl) with 1 in MR, ME, D. rewrite D. clear D.
  assert (SE : sane (enh_of st)) by (destruct st as [[x y] z]; apply SS).
  destruct (Z_le_gt_dec (5700 + p_amplitudeThreshold (enh_of st)) 2147483647) as [A|A].
  - assert (HTm : smoothing_Tm (p_errorRate m) (p_errorCountTotal m) (p_amplitudeThreshold (enh_of st)) = Ok (5700 + p_amplitudeThreshold (enh_of st))).
    { rewrite MR, ME, Tm_one; [apply to_int_ok; lia|exact BU|lia]. }
    destruct (speak_defined o a (ac_buf cl) m (enh_of st) (ac_uv cl) t _ SM SE HTm TH LB) as (b & c' & t' & HS & SC' & TH'). rewrite HS. cbn [bind].
    destruct (speak_inv _ _ _ _ _ _ _ _ _ _ (proj1 SM) (proj1 SE) (proj1 (proj2 SM)) LB HS) as (k' & E & _ & _ & _ & _ & HT' & _).
    assert (EK : k' = c') by congruence. subst k'. clear E. rewrite HTm in HT'. assert (AT : p_amplitudeThreshold c' = 5700 + p_amplitudeThreshold (enh_of st)) by congruence.
    rewrite (IH (c', m, c') t' HX Hd LB HV HL); [reflexivity|split; [exact SC'|split; [exact SM|exact SC']]|exact TH'|apply foreign_exact, MT|cbn [prev_of]; rewrite ML; exact HL| | |].
    + cbn [prev_of]. rewrite MR. apply busy_step, BU.
    + cbn [enh_of]. lia.
    + cbn [enh_of]. lia.
  - rewrite (speak_overflow o a (ac_buf cl) m (enh_of st) (ac_uv cl) t Overflow SM); [reflexivity|]. rewrite MR, ME, Tm_one; [|exact BU|lia].
    unfold to_int. destruct (in_int _) eqn:E; [|reflexivity]. unfold in_int in E. lia.
Qed.
(* the first frames from initialisation: the rate rises over 0.5 % within six frames *)
Lemma ambe_warm : forall r o a d uv buf st t x, good_exp2 o r -> is_bits 49 d -> length buf = 160%nat -> is_voice r (mkambe_call d 1 0 true uv buf) -> harmonics r d <= 55 ->
  sane_state st -> thread_ok t -> foreign (prev_of st) = false -> p_L (prev_of st) <= 55 -> p_errorRate (prev_of st) = x -> p_amplitudeThreshold (enh_of st) <= 1000000 ->
  exists b s st1 t1, do_ambe r o a (mkambe_call d 1 0 true uv buf) st t = Ok (b, s, st1, t1) /\ sane_state st1 /\ thread_ok t1 /\ foreign (prev_of st1) = false /\ p_L (prev_of st1) <= 55 /\ p_errorRate (prev_of st1) = ambe_rate x 1 /\
   smoothing_Tm (ambe_rate x 1) 1 (p_amplitudeThreshold (enh_of st)) = Ok (p_amplitudeThreshold (enh_of st1)).
Proof.
  intros r o a d uv buf st t x HX Hd LB HV HL SS TH FO PL EX AT.
  set (cl := mkambe_call d 1 0 true uv buf) in *. assert (HC : ambe_ok cl) by (split; [exact Hd|split; [cbn; lia|exact LB]]).
  assert (U : usable_history (harmonics r (ac_bits cl)) (prev_of st)) by (destruct st as [[x1 y] z]; apply usable_55; [apply SS|exact PL]).
  destruct (plain_call r o a cl st t HX HC SS FO HV (one_no_need r d uv buf) U) as (m & SM & (ML & MR & ME & MC & MT) & D).
  change (ac_errors cl) with 1 in MR, ME, D. rewrite EX in MR. rewrite D. clear D.
  assert (SE : sane (enh_of st)) by (destruct st as [[x1 y] z]; apply SS).
  destruct (Tm_total (p_errorRate m) (p_errorCountTotal m) (p_amplitudeThreshold (enh_of st))) as (T & HTm & _); [apply SM|lia|].
  destruct (speak_defined o a (ac_buf cl) m (enh_of st) (ac_uv cl) t _ SM SE HTm TH LB) as (b & c' & t' & HS & SC' & TH'). rewrite HS. cbn [bind].
  destruct (speak_inv _ _ _ _ _ _ _ _ _ _ (proj1 SM) (proj1 SE) (proj1 (proj2 SM)) LB HS) as (k' & E & _ & _ & _ & _ & HT' & _).
  assert (EK : k' = c') by congruence. subst k'. clear E.
  exists b, (status 1 []), (c', m, c'), t'. split; [reflexivity|]. split; [split; [exact SC'|split; [exact SM|exact SC']]|]. split; [exact TH'|]. cbn [prev_of enh_of].
  split; [apply foreign_exact, MT|]. split; [rewrite ML; exact HL|]. split; [exact MR|]. rewrite <- MR, <- ME. exact HT'.
Qed.
Fixpoint rates (n : nat) : f32 := match n with O => S754_zero false | S n => ambe_rate (rates n) 1 end.
Lemma first_rates : forall i, (1 <= i <= 5)%nat -> smoothing_Tm (rates i) 1 20480 = Ok 20480.
Proof. intros i Hi. do 6 (destruct i as [|i]; [first [lia|vm_compute; reflexivity]|]). lia. Qed.
Lemma sixth_rate : busy (ambe_rate (rates 5) 1).
Proof. vm_compute. repeat split. Qed.
Lemma ambe_overflow_start : forall r o a d uv buf k t, good_exp2 o r -> is_bits 49 d -> length buf = 160%nat -> is_voice r (mkambe_call d 1 0 true uv buf) -> harmonics r d <= 55 -> thread_ok t ->
  2147483647 < 20480 + 5700 * Z.of_nat k -> ambe_stream (do_ambe r o a) (repeat (mkambe_call d 1 0 true uv buf) (5 + k)) start_ambe t = UB Overflow.
Proof.
  intros r o a d uv buf k t HX Hd LB HV HL TH HK.
  assert (W : forall j i st t, (i + j = 5)%nat -> sane_state st -> thread_ok t -> foreign (prev_of st) = false -> p_L (prev_of st) <= 55 -> p_errorRate (prev_of st) = rates i -> p_amplitudeThreshold (enh_of st) = 20480 ->
    ambe_stream (do_ambe r o a) (repeat (mkambe_call d 1 0 true uv buf) (j + k)) st t = UB Overflow).
  { induction j as [|j IH]; intros i st t0 EI SS T0 FO PL EX AT.
    - apply ambe_overflow; auto; [|lia|rewrite AT; exact HK]. rewrite EX. replace i with 5%nat by lia. apply sixth_rate.
    - cbn [plus repeat ambe_stream]. destruct (ambe_warm r o a d uv buf st t0 (rates i) HX Hd LB HV HL SS T0 FO PL EX ltac:(lia)) as (b & s & st1 & t1 & -> & S1 & T1 & F1 & P1 & E1 & A1). cbn [bind].
      rewrite AT in A1. change (ambe_rate (rates i) 1) with (rates (S i)) in *. rewrite first_rates in A1 by lia. 
      rewrite (IH (S i) st1 t1); auto; [lia|congruence]. }
  apply (W 5%nat 0%nat); auto; try reflexivity; [apply sane_start_ambe|change (15 <= 55); lia].
Qed.
(* two voice frames of 56 harmonics in a row *)
Lemma ambe_outside : forall r o a d uv buf st t, good_exp2 o r -> is_bits 49 d -> length buf = 160%nat -> let cl := mkambe_call d 0 0 true uv buf in is_voice r cl -> harmonics r d = 56 ->
  sane_state st -> thread_ok t -> foreign (prev_of st) = false -> p_L (prev_of st) <= 55 -> threshold_room (enh_of st) -> ambe_stream (do_ambe r o a) [cl; cl] st t = UB OOB.
Proof.
  intros r o a d uv buf st t HX Hd LB cl HV HL SS TH FO PL TR. assert (HC : ambe_ok cl) by (split; [exact Hd|split; [cbn; lia|exact LB]]).
  assert (U : usable_history (harmonics r (ac_bits cl)) (prev_of st)) by (destruct st as [[x1 y] z]; apply usable_55; [apply SS|exact PL]).
  assert (NN : needs r cl = false) by (destruct r; reflexivity).
  destruct (plain_call r o a cl st t HX HC SS FO HV NN U) as (m & SM & (ML & MR & ME & MC & MT) & D). cbn [ambe_stream]. rewrite D. clear D.
  assert (SE : sane (enh_of st)) by (destruct st as [[x1 y] z]; apply SS).
  destruct (speak_total o a (ac_buf cl) m (enh_of st) (ac_uv cl) t SM SE TR TH LB) as (b & c' & t' & -> & SC' & TH'). cbn [bind].
  assert (L56 : p_L m = 56) by (rewrite ML; exact HL). pose proof (foreign_exact m MT) as FM. pose proof (begin_own (c', m, c') FM) as BG.
  assert (SW : sane (with_errors 0 (ambe_rate (p_errorRate m) 0) c')) by (apply sane_with_errors; [lia|exact SC']).
  destruct r; cbn [do_ambe is_voice harmonics good_exp2] in *; unfold cl in *.
  - unfold do2450. cbn [ac_buf ac_errors ac_bits ac_uv ac_c0 ac_known]. unfold mbe_processAmbe2450Dataf_internal. rewrite ensure_ok by apply SM. cbn [bind]. rewrite BG. rewrite entry_eq.
    unfold kind_of in HV. cbn [ac_bits ac_errors] in HV. destruct (kind_cases d 0 Hd) as [(T & N & E)|[(T & N & E)|(NT & NE & E)]]; [destruct (tone_hz (tone_id d)); congruence|congruence|].
    rewrite ambe2450_outside; [reflexivity|exact Hd|apply SW|exact NT|exact NE|apply SM|exact L56|rewrite HL; lia|rewrite HL; lia].
  - unfold do2400. cbn [ac_buf ac_errors ac_bits ac_uv ac_c0 ac_known]. unfold mbe_processAmbe2400Dataf. rewrite ensure_ok by apply SM. cbn [bind]. rewrite BG. rewrite entry_eq.
    assert (HB : pitch2400 d < 126) by (unfold voice2400 in HV; cbn [ac_bits] in HV; lia). pose proof (pitch2400_range _ Hd) as PR. specialize (HX (pitch2400 d) ltac:(lia)).
    rewrite ambe2400_outside; [reflexivity|exact Hd|apply SW|exact HB|exact HX|apply SM|exact L56|rewrite HL; lia|rewrite HL; lia].
Qed.
(* ---- local energy ---- *)
Lemma nan_mul : forall x, fmul x S754_nan = S754_nan. Proof. intros []; reflexivity. Qed.
Lemma nan_add : forall x, fadd S754_nan x = S754_nan. Proof. intros []; reflexivity. Qed.
Lemma nan_energy : forall rm0, smoothing_energy S754_nan rm0 = S754_nan.
Proof.
  intros rm0. unfold smoothing_energy. cbv zeta. change (flt S754_nan MIN_LOCAL_ENERGY) with false. cbv iota. rewrite nan_mul, nan_add. reflexivity.
Qed.
Lemma speech_energy : forall o aout a cur prev uvq t aout' cur' prev' t', mbe_synthesizeSpeechf o aout a cur prev uvq t = Ok (aout', cur', prev', t') ->
  exists rm0, p_localEnergy cur' = smoothing_energy (p_localEnergy prev) rm0.
Proof.
  intros o aout a cur prev uvq t aout' cur' prev' t' H. apply speech_inv in H as (c1 & t1 & HA & H).
  assert (E : p_localEnergy cur' = p_localEnergy c1).
  { destruct H as [(_ & -> & _)|(_ & F)]; [reflexivity|]. destruct F as (noise & seed & ov & nu & c & p & HN & B1 & B2 & B3 & B4 & PD & _ & U).
    destruct PD as (F1 & _). cbn [fst snd] in *. apply (f_equal p_localEnergy) in F1. fields. rewrite F1, B1. reflexivity. }
  apply smoothing_inv in HA as (rm0 & V & Am & T & M & _ & _ & _ & _ & _ & ->). exists rm0. rewrite E. reflexivity.
Qed.
Lemma speak_energy : forall o a aout cur enh uvq t aout' st' t', wf_parms cur -> 0 <= p_L cur <= 56 -> ambe_speak o a aout cur enh uvq t = Ok (aout', st', t') ->
  exists rm0, p_localEnergy (enh_of st') = smoothing_energy (p_localEnergy enh) rm0.
Proof.
  intros o a aout cur enh uvq t aout' st' t' WC HL H. unfold ambe_speak in H. cbv zeta in H. unfold mbe_moveMbeParms in H.
  destruct (enhance_ok o a cur t) as (c1 & xs & HE & EN); [apply WC|exact HL|]. rewrite HE in H. cbn [bind] in H.
  apply bind_inv in H as ([[[b c2] e2] t2] & HS & H).
  assert (Q : st' = (c2, cur, c2)) by congruence. rewrite Q. cbn [enh_of]. exact (speech_energy _ _ _ _ _ _ _ _ _ _ _ HS).
Qed.
Lemma nan_stays : forall r o a cs st t s st' t', good_exp2 o r -> Forall (plain_voice r) cs -> sane_state st -> thread_ok t -> foreign (prev_of st) = false -> p_L (prev_of st) <= 55 ->
  is_nan (p_localEnergy (enh_of st)) -> ambe_stream (do_ambe r o a) cs st t = Ok (s, st', t') -> is_nan (p_localEnergy (enh_of st')).
Proof.
  intros r o a cs st t s st' t' HX HF SS TH FO PL HN H.
  apply (stream_inv (do_ambe r o a) (plain_voice r) (fun st t => (sane_state st /\ thread_ok t) /\ foreign (prev_of st) = false /\ p_L (prev_of st) <= 55 /\ is_nan (p_localEnergy (enh_of st)))) in H; [apply H| |exact HF|auto].
  clear - HX. intros c st t b s st' t' (Hc & Hv & Hn & Hl) ((SS & TH) & FO & PL & HN) D. destruct (ambe_step _ _ _ _ _ _ _ _ _ _ HX Hc SS TH D) as (S1 & T1 & _).
  split; [auto|]. assert (U : usable_history (harmonics r (ac_bits c)) (prev_of st)) by (destruct st as [[x y] z]; apply usable_55; [apply SS|exact PL]).
  destruct (plain_call r o a c st t HX Hc SS FO Hv Hn U) as (m & SM & (ML & MR & ME & MC & MT) & E). rewrite E in D. apply bind_inv in D as ([[b1 st1] t1] & HS & D).
  apply Ok4 in D as (_ & _ & <- & _). destruct (speak_energy _ _ _ _ _ _ _ _ _ _ (proj1 SM) (proj1 (proj2 SM)) HS) as (rm0 & EE). rewrite HN, nan_energy in EE.
  assert (WE : wf_parms (enh_of st)) by (destruct st as [[x y] z]; apply SS).
  destruct (speak_inv _ _ _ _ _ _ _ _ _ _ (proj1 SM) WE (proj1 (proj2 SM)) (proj2 (proj2 Hc)) HS) as (k & -> & _).
  cbn [prev_of enh_of] in *. split; [apply foreign_exact, MT|]. split; [rewrite ML; exact Hl|exact EE].
Qed.
(* no band is forced voiced while the energy is not a number *)
Lemma nan_blind : forall o a cur prev t cur' t', mbe_applyAdaptiveSmoothing o a cur prev t = Ok (cur', t') -> is_nan (p_localEnergy prev) ->
  fle (p_errorRate cur) (flit 5 1000) && (p_errorCountTotal cur <=? 4) = false -> p_Vl cur' = p_Vl cur /\ is_nan (p_localEnergy cur').
Proof.
  intros o a cur prev t cur' t' H HN HE. apply smoothing_inv in H as (rm0 & V & Am & T & M & _ & HV & _ & _ & _ & ->).
  rewrite HN, nan_energy in *. split; [|reflexivity]. change (V = p_Vl cur).
  assert (EV : smoothing_VM o (p_errorRate cur) (p_errorCountTotal cur) (p_errorCount4 cur) S754_nan = S754_nan).
  { unfold smoothing_VM. change LOW with (flit 5 1000). rewrite HE. cbv zeta. change (fsqrt (fsqrt (fsqrt S754_nan))) with S754_nan. change (fmul (fmul S754_nan S754_nan) S754_nan) with S754_nan.
    rewrite !nan_mul. destruct (fle (p_errorRate cur) ENTRY && _); [|reflexivity]. destruct (expf o _); reflexivity. }
  rewrite EV in HV. apply voicing_spec in HV as [LV HV]. apply list_eq_nth; [exact LV|]. intros i Hi. 
  destruct (nth_error (p_Vl cur) i) as [v|] eqn:E; [|apply nth_error_None in E; lia].
  assert (R : rd (p_Vl cur) (Z.of_nat i) = Ok v) by (apply rd_some; [lia|rewrite Nat2Z.id; exact E]).
  destruct (HV _ _ R) as [Q|(_ & _ & x & _ & F)]; [|destruct x; discriminate F].
  unfold rd in Q. destruct (Z.ltb_spec (Z.of_nat i) 0); [lia|]. rewrite Nat2Z.id in Q. destruct (nth_error V i); congruence.
Qed.

(* ---- witnesses ---- *)
Definition real_oracle : oracle := mkoracle (fun x => if SFeqb x fzero then flit 1 1 else flit 1 2) (fun _ => S754_zero false) (fun _ => flit 1 1) (fun _ => flit 1 1) (fun _ => flit 1 1) (fun _ _ => flit 1 1) (fun _ _ => flit 1 1) true Scalar true.
Definition erasing : ambe_call := mkambe_call erasure_bits 0 0 true 3 quiet.
Definition lost : ambe_call := mkambe_call (repeat 0 49) 6 3 true 3 quiet.
Definition strange : ambe_call := mkambe_call (repeat 1 6 ++ repeat 0 43) 0 0 true 3 quiet.
Lemma bits_app : forall n m a b, is_bits n a -> is_bits m b -> is_bits (n + m) (a ++ b).
Proof. intros n m a b [L1 F1] [L2 F2]. split; [rewrite app_length; lia|]. apply Forall_app. auto. Qed.
Lemma erasing_ok : ambe_ok erasing. Proof. split; [apply (bits_app 4 45); apply bits_repeat; auto|]. split; [cbn; lia|reflexivity]. Qed.
Lemma lost_ok : ambe_ok lost. Proof. split; [apply bits_repeat; auto|]. split; [cbn; lia|reflexivity]. Qed.
Lemma strange_ok : ambe_ok strange. Proof. split; [apply (bits_app 6 43); apply bits_repeat; auto|]. split; [cbn; lia|reflexivity]. Qed.
Lemma nan_values : match ambe_stream (do2450 real_oracle 1) [erasing; lost; strange] start_ambe thread0 with
  | Ok (_, st, _) => rd (p_Ml (enh_of st)) 1 = Ok S754_nan /\ p_localEnergy (enh_of st) = S754_nan /\ p_L (prev_of st) = 9 /\ foreign (prev_of st) = false | UB _ => False end.
Proof. vm_compute. auto. Qed.
Lemma nan_amplitudes : match ambe_stream (do2450 real_oracle 1) [erasing; lost] start_ambe thread0 with
  | Ok (_, st, _) => rd (p_Ml (cur_of st)) 1 = Ok S754_nan | UB _ => False end.
Proof. vm_compute. reflexivity. Qed.
Lemma amplitude_witness : exists o a cs t r st t', Forall ambe_ok cs /\ thread_ok t /\ ambe_stream (do2450 o a) cs start_ambe t = Ok (r, st, t') /\ rd (p_Ml (cur_of st)) 1 = Ok S754_nan.
Proof.
  exists real_oracle, 1, [erasing; lost], thread0. pose proof nan_amplitudes as N. destruct (ambe_stream (do2450 real_oracle 1) [erasing; lost] start_ambe thread0) as [[[r st] t]|w]; [|contradiction].
  exists r, st, t. split; [constructor; [apply erasing_ok|constructor; [apply lost_ok|constructor]]|]. split; [apply thread0_ok|]. split; [reflexivity|exact N].
Qed.
Lemma energy_witness : exists o a cs t r st t', Forall ambe_ok cs /\ thread_ok t /\ ambe_stream (do2450 o a) cs start_ambe t = Ok (r, st, t') /\ is_nan (p_localEnergy (enh_of st)) /\ foreign (prev_of st) = false /\ p_L (prev_of st) <= 55.
Proof.
  exists real_oracle, 1, [erasing; lost; strange], thread0. pose proof nan_values as N. destruct (ambe_stream (do2450 real_oracle 1) [erasing; lost; strange] start_ambe thread0) as [[[r st] t]|w]; [|contradiction].
  exists r, st, t. destruct N as (_ & N1 & N2 & N3). split; [constructor; [apply erasing_ok|constructor; [apply lost_ok|constructor; [apply strange_ok|constructor]]]|]. split; [apply thread0_ok|]. split; [reflexivity|]. split; [exact N1|]. split; [exact N3|lia].
Qed.
(* a concealed IMBE frame after AMBE use hides the switch from the next AMBE call *)
Lemma conceal_once : forall o a c st t, concealed R2450 c -> sane_state st -> thread_ok t -> foreign (prev_of st) = false -> p_repeatCount (prev_of st) + 1 <= 3 ->
  threshold_room (enh_of st) -> p_L (prev_of st) <= 55 -> exists b s st' t', do2450 o a c st t = Ok (b, s, st', t') /\ p_repeatCount (prev_of st') = p_repeatCount (prev_of st) + 1.
Proof.
  intros o a c st t CL S1 T1 FO RC TR L1.
  destruct (ambe_defined R2450 o a c st t I (proj1 CL) S1 T1) as (b1 & s1 & st1 & t2 & D1 & _).
  { rewrite (begin_own st FO). exact TR. }
  { intros _. rewrite (begin_own st FO). apply usable_55; [destruct st as [[x y] z]; apply S1|lia]. }
  assert (HF : Forall (concealed R2450) [c]) by (constructor; [exact CL|constructor]).
  assert (E1 : ambe_stream (do_ambe R2450 o a) [c] st t = Ok ([(b1, s1)], st1, t2)) by (cbn [ambe_stream]; rewrite D1; reflexivity).
  apply conceal_run in E1 as (_ & _ & C1 & _); [|exact I|exact HF|exact S1|exact T1|exact FO|exact RC].
  exists b1, s1, st1, t2. split; [exact D1|exact C1].
Qed.
Lemma switch_missed : exists o a ic ac t b s st t1 b1 s1 st1 t2 b2 s2 st2 t3, call_ok ic /\ ambe_ok ac /\ thread_ok t /\ imbe_do o a ic start_ambe t = Ok (b, s, st, t1) /\
  do2450 o a ac st t1 = Ok (b1, s1, st1, t2) /\ do2450 o a ac start_ambe t1 = Ok (b2, s2, st2, t3) /\ p_repeatCount (prev_of st1) = 2 /\ p_repeatCount (prev_of st2) = 1.
Proof.
  pose proof (call_repeat 1 0 0 true fzero (or_intror eq_refl) ltac:(lia)) as Hic. set (ic := mkimbe_call (repeat 1 88) 0 0 true 3 (repeat fzero 160)) in *.
  destruct (threshold_kept zero_oracle 1 (repeat 1 88) (repeat fzero 160) thread0) as (b & s & st & t1 & D & M & _); [apply bits_repeat; auto|vm_compute; reflexivity|reflexivity|apply thread0_ok|]. fold ic in D.
  destruct (imbe_step _ _ _ _ _ _ _ _ _ Hic sane_start_ambe thread0_ok D) as (S1 & T1 & RC & _ & _ & L1 & _ & _ & _ & _ & _ & _ & _ & _ & _ & A1 & _).
  assert (NN : forall rate, imbe_needs (ic_bits ic) (ic_errors ic) rate (context (ic_c0 ic) (ic_c0_known ic)) = true).
  { intros rate. unfold imbe_needs, context, ic. cbn [ic_bits ic_errors ic_c0 ic_c0_known]. replace (207 <? pitch7200 (repeat 1 88)) with true by (vm_compute; reflexivity). reflexivity. }
  rewrite NN in RC, L1. change (next_count true (p_repeatCount (prev_of start_ambe))) with 1 in RC. change (if true && (p_repeatCount (prev_of start_ambe) <? 4) then p_L (prev_of start_ambe) else 39) with 15 in L1.
  change (p_amplitudeThreshold (enh_of start_ambe)) with 20480 in A1.
  assert (FO : foreign (prev_of st) = false) by (apply foreign_exact, M). assert (FS : foreign (prev_of start_ambe) = false) by (apply foreign_exact, start_exact).
  assert (CL : concealed R2450 lost) by (split; [apply lost_ok|split; vm_compute; reflexivity]).
  assert (RS : p_repeatCount (prev_of start_ambe) = 0) by reflexivity. assert (LS : p_L (prev_of start_ambe) <= 55) by (vm_compute; discriminate).
  assert (TS : threshold_room (enh_of start_ambe)) by (vm_compute; discriminate). assert (T1' : threshold_room (enh_of st)) by (unfold threshold_room; lia).
  pose proof sane_start_ambe as SA. revert D RS LS TS SA FS. generalize start_ambe as sa. intros sa D RS LS TS SA FS.
  destruct (conceal_once zero_oracle 1 lost st t1 CL S1 T1 FO ltac:(lia) T1' ltac:(lia)) as (b1 & s1 & st1 & t2 & D1 & C1).
  destruct (conceal_once zero_oracle 1 lost sa t1 CL SA T1 FS ltac:(lia) TS LS) as (b2 & s2 & st2 & t3 & D2 & C2).
  exists zero_oracle, 1, ic, lost, thread0, b, s, st, t1, b1, s1, st1, t2, b2, s2, st2, t3. split; [exact Hic|]. split; [apply lost_ok|]. split; [apply thread0_ok|]. split; [exact D|]. split; [exact D1|]. split; [exact D2|].
  rewrite C1, C2, RC, RS. split; reflexivity.
Qed.
(* ---- 2400 tones ---- *)
Lemma tone_masked : forall o a cl st t, ambe_ok cl -> sane_state st -> voice2400 cl = false ->
  do2400 o a cl st t = ('(b, t') <- mbe_synthesizeComfortNoisef (ac_buf cl) t ;; Ok (b, status (ac_errors cl) (marker2400 cl), start_ambe, t')).
Proof. intros o a cl st t HC SS HV. destruct (begin st) as [[c p] e] eqn:BG. exact (tone2400_eq o a cl st t c p e HC SS BG HV). Qed.
(* tone 16, 500 Hz *)
Definition tone16 : ambe_call := mkambe_call (repeat 1 6 ++ [0; 0; 1; 1] ++ repeat 0 38 ++ [1]) 0 0 true 3 quiet.
Definition loud_oracle : oracle := mkoracle (fun _ => fzero) (fun _ => flit 1 1) (fun _ => fzero) (fun _ => fzero) (fun _ => fzero) (fun _ _ => fzero) (fun _ _ => fzero) true Scalar true.
Lemma tone16_ok : ambe_ok tone16.
Proof. split; [apply (bits_app 6 43); [apply bits_repeat; auto|]; apply (bits_app 4 39); [|apply (bits_app 38 1); [apply bits_repeat; auto|]]; (split; [reflexivity|]); repeat (apply Forall_cons; [unfold is_bit; auto|]); apply Forall_nil|]. split; [cbn; lia|reflexivity]. Qed.
Lemma wave_loud : forall ph, osc_wave loud_oracle ph = flit 1 1.
Proof. reflexivity. Qed.
Lemma tone_head : forall hz p1 p2, snd hz = 0 -> hd fzero (tone_frame loud_oracle hz p1 p2 0 103) = fmul (amp_gain 103) (flit 1 1).
Proof. intros hz p1 p2 H. unfold tone_frame. cbn [seq map hd]. unfold tone_sample. rewrite H, wave_loud. reflexivity. Qed.
Lemma noise_head : forall b t', mbe_synthesizeComfortNoisef quiet thread0 = Ok (b, t') -> hd fzero b <> fmul (amp_gain 103) (flit 1 1).
Proof.
  intros b t' H. assert (Q : match mbe_synthesizeComfortNoisef quiet thread0 with Ok (b, _) => flt (hd fzero b) fzero | UB _ => false end = true) by (vm_compute; reflexivity).
  rewrite H in Q. intro E. rewrite E in Q. vm_compute in Q. discriminate Q.
Qed.
Lemma tone_lost : exists o a t b s st' t', do2400 o a tone16 start_ambe t = Ok (b, s, st', t') /\ (forall p1 p2, b <> tone_frame o (3125 * 16, 0) p1 p2 0 103).
Proof.
  assert (V : voice2400 tone16 = false) by (vm_compute; reflexivity).
  pose proof (tone_masked loud_oracle 1 tone16 start_ambe thread0 tone16_ok sane_start_ambe V) as E. change (ac_buf tone16) with quiet in E.
  destruct (mbe_synthesizeComfortNoisef quiet thread0) as [[b t']|w] eqn:M; [|exfalso; revert M; clear; intro M; assert (Q : match mbe_synthesizeComfortNoisef quiet thread0 with Ok _ => true | UB _ => false end = true) by (vm_compute; reflexivity); rewrite M in Q; discriminate Q].
  cbv beta iota delta [bind] in E. exists loud_oracle, 1, thread0, b, (status (ac_errors tone16) (marker2400 tone16)), start_ambe, t'. split; [exact E|].
  intros p1 p2 B. apply (noise_head _ _ M). rewrite B. apply tone_head. reflexivity.
Qed.
(* ---- witnesses ---- *)
Lemma ambe_start_total : forall r o a cs st t, good_exp2 o r -> Forall ambe_ok cs -> Forall (few_bands r) cs -> thread_ok t -> st = start \/ st = start_ambe -> Z.of_nat (length cs) <= 357000 ->
  exists s st' t', ambe_stream (do_ambe r o a) cs st t = Ok (s, st', t').
Proof.
  intros r o a cs st t HX HC HF TH HS HN. assert (A : sane_state st /\ p_L (prev_of st) <= 55 /\ p_amplitudeThreshold (enh_of st) <= 20480).
  { destruct HS as [-> | ->]; [split; [exact sane_start|]|split; [exact sane_start_ambe|]]; (split; vm_compute; discriminate). }
  destruct A as (SS & HL & HA). apply ambe_stream_total; auto. lia.
Qed.
Definition wide2450 : list Z := [1; 1; 1] ++ repeat 0 34 ++ [1; 1; 0] ++ repeat 0 9.
Definition wide2400 : list Z := [1; 1; 1; 0; 1; 1] ++ repeat 0 43.
Lemma wide_bits : is_bits 49 wide2450 /\ is_bits 49 wide2400.
Proof.
  split; [apply (bits_app 3 46); [|apply (bits_app 34 12); [apply bits_repeat; auto|]; apply (bits_app 3 9); [|apply bits_repeat; auto]]|apply (bits_app 6 43); [|apply bits_repeat; auto]];
    (split; [reflexivity|]); repeat (apply Forall_cons; [unfold is_bit; auto|]); apply Forall_nil.
Qed.
Lemma ambe_outside_witness : forall r, exists o a c t, good_exp2 o r /\ ambe_ok c /\ thread_ok t /\ ambe_stream (do_ambe r o a) [c; c] start_ambe t = UB OOB.
Proof.
  intro r. set (d := match r with R2450 => wide2450 | R2400 => wide2400 end).
  assert (HB : is_bits 49 d) by (destruct r; apply wide_bits). assert (HX : good_exp2 near_oracle r) by (destruct r; [exact I|exact near_oracle_close]).
  assert (FS : foreign (prev_of start_ambe) = false) by (apply foreign_exact, start_exact).
  exists near_oracle, 1, (mkambe_call d 0 0 true 3 quiet), thread0. split; [exact HX|]. split; [split; [exact HB|split; [cbn; lia|reflexivity]]|]. split; [exact thread0_ok|].
  apply ambe_outside; [exact HX|exact HB|reflexivity| | |exact sane_start_ambe|exact thread0_ok|exact FS|vm_compute; discriminate|vm_compute; discriminate]; subst d; destruct r; vm_compute; reflexivity.
Qed.
Lemma ambe_overflow_witness : forall r, exists o a cs t, good_exp2 o r /\ Forall ambe_ok cs /\ thread_ok t /\ ambe_stream (do_ambe r o a) cs start_ambe t = UB Overflow.
Proof.
  intro r. assert (HX : good_exp2 near_oracle r) by (destruct r; [exact I|exact near_oracle_close]). set (d := repeat 0 49). assert (HB : is_bits 49 d) by (apply bits_repeat; auto).
  exists near_oracle, 1, (repeat (mkambe_call d 1 0 true 3 quiet) (5 + Z.to_nat 377000)), thread0. split; [exact HX|]. split; [|split; [exact thread0_ok|]].
  - apply Forall_forall. intros x Hx. apply repeat_spec in Hx. subst x. split; [exact HB|split; [cbn; lia|reflexivity]].
  - apply ambe_overflow_start; [exact HX|exact HB|reflexivity| | |exact thread0_ok|rewrite Z2Nat.id by lia; lia]; subst d; destruct r; try (vm_compute; reflexivity); vm_compute; discriminate.
Qed.
(* DTMF 5 *)
Definition digit : ambe_call := mkambe_call (repeat 1 6 ++ repeat 0 6 ++ [1; 0; 0; 0; 0; 1; 0; 1] ++ repeat 0 29) 0 0 true 3 quiet.
Lemma digit_ok : ambe_ok digit.
Proof.
  split; [apply (bits_app 6 43); [apply bits_repeat; auto|]; apply (bits_app 6 37); [apply bits_repeat; auto|]; apply (bits_app 8 29); [|apply bits_repeat; auto]; (split; [reflexivity|]); repeat (apply Forall_cons; [unfold is_bit; auto|]); apply Forall_nil|].
  split; [cbn; lia|reflexivity].
Qed.
Lemma counters_apart : exists o a cs t r st t', Forall ambe_ok cs /\ thread_ok t /\ ambe_stream (do2450 o a) cs start_ambe t = Ok (r, st, t') /\ p_repeatCount (prev_of st) = 1 /\ p_repeatCount (cur_of st) = 0.
Proof.
  assert (Q : match ambe_stream (do2450 zero_oracle 1) [lost; digit] start_ambe thread0 with Ok (_, st, _) => (p_repeatCount (prev_of st) =? 1) && (p_repeatCount (cur_of st) =? 0) | UB _ => false end = true) by (vm_compute; reflexivity).
  assert (F : Forall ambe_ok [lost; digit]) by (constructor; [apply lost_ok|constructor; [apply digit_ok|constructor]]).
  revert Q F. generalize [lost; digit] as cs. intros cs Q F.
  destruct (ambe_stream (do2450 zero_oracle 1) cs start_ambe thread0) as [[[r st] t']|w] eqn:E; [|discriminate Q].
  apply andb_true_iff in Q as [A B]. apply Z.eqb_eq in A, B. exists zero_oracle, 1, cs, thread0, r, st, t'. split; [exact F|]. split; [apply thread0_ok|]. auto.
Qed.
Lemma imbe_handoff : forall o a c st t b str st' t', call_ok c -> sane_state st -> thread_ok t -> imbe_do o a c st t = Ok (b, str, st', t') -> t_rm0_valid t' = false.
Proof.
  intros o a c st t b str st' t' Hc SS TH H. destruct (imbe_step _ _ _ _ _ _ _ _ _ Hc SS TH H) as (_ & _ & _ & _ & _ & _ & _ & _ & _ & _ & _ & _ & _ & _ & _ & _ & _ & _ & A & _). exact A.
Qed.
Lemma step2400_only : forall o a cl st t b str st' t' c p e, ambe_ok cl -> sane_state st -> thread_ok t -> good_exp2 o R2400 -> do2400 o a cl st t = Ok (b, str, st', t') ->
  begin st = (c, p, e) -> step2400 o cl c p e t b str st'.
Proof.
  intros o a cl st t b str st' t' c p e HC SS TH HX H B.
  assert (P : voice2400 cl = true -> exp2_close o (exponent2400 (pitch2400 (ac_bits cl)))).
  { intro V. unfold voice2400 in V. apply Z.ltb_lt in V. apply HX. split; [|exact V]. apply (pitch2400_range _ (proj1 HC)). }
  apply (step2400_ok _ _ _ _ _ _ _ _ _ _ _ _ HC SS TH P H B).
Qed.
Lemma ambe_case_ok : Forall ambe_ok [lost; digit; erasing] /\ Forall (few_bands R2450) [lost; digit; erasing] /\ thread_ok thread0 /\ good_exp2 near_oracle R2400 /\ sane_state start_ambe.
Proof.
  split; [constructor; [apply lost_ok|constructor; [apply digit_ok|constructor; [apply erasing_ok|constructor]]]|].
  split; [constructor; [intros _; vm_compute; discriminate|constructor; [intro V; vm_compute in V; discriminate V|constructor; [intro V; vm_compute in V; discriminate V|constructor]]]|].
  split; [exact thread0_ok|]. split; [exact near_oracle_close|exact sane_start_ambe].
Qed.
Lemma begin_case : foreign (prev_of start) = true /\ begin start = start_ambe /\ foreign (prev_of start_ambe) = false /\ start <> start_ambe.
Proof. split; [vm_compute; reflexivity|]. split; [vm_compute; reflexivity|]. split; [vm_compute; reflexivity|]. intro E. assert (Q : p_L (prev_of start) = p_L (prev_of start_ambe)) by (rewrite E; reflexivity). vm_compute in Q. discriminate Q. Qed.
Lemma step2450_only : forall o a cl st t b str st' t' c p e, ambe_ok cl -> sane_state st -> thread_ok t -> do2450 o a cl st t = Ok (b, str, st', t') ->
  begin st = (c, p, e) -> step2450 o cl c p e t b str st'.
Proof. intros o a cl st t b str st' t' c p e HC SS TH H B. apply (step2450_ok _ _ _ _ _ _ _ _ _ _ _ _ HC SS TH H B). Qed.
