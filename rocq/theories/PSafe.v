(* Safe use of the whole interface. *)
From Coq Require Import ZArith List Bool Lia SpecFloat.
From Verif Require Import Res F32 MFrame MParms MAdaptive MUnvoiced MSynth MImbe MAmbe SpecEcc SpecFrame SpecState SpecAdaptive SpecGen SpecOut SpecWola SpecImbe SpecAmbe SpecMachine SpecTone SpecAmbeMachine SpecEnd MApi SpecSched SpecSafe.
From Verif Require Import PBase PRun PLoop PState PConv PNyq PAdapt PEnh PSpeech PGen POut PShort PTone PDec PImbe PAmbeDec PAmbeDec2 PMachine PStream PAmbeMachine PAmbeStream PEnd.
Import ListNotations.
Local Open Scope Z_scope.

(* ---- conversion ---- *)
Lemma to_short_safe : forall x, (exists z, short_of_sample x = Ok z) \/ short_of_sample x = UB BadConv.
Proof. intros x. unfold short_of_sample. cbv zeta. unfold sf_to_short. match goal with |- context [sf_trunc ?y] => destruct (sf_trunc y) as [z|] end; [|right; reflexivity]. destruct (_ && _); eauto. Qed.
Lemma convert_safe : forall o fb aout, length fb = 160%nat -> length aout = 160%nat -> (exists s, mbe_floattoshort o fb aout = Ok s /\ length s = 160%nat) \/ (mbe_floattoshort o fb aout = UB BadConv /\ o_simd o = Scalar).
Proof.
  intros o fb aout Lf La. unfold mbe_floattoshort. destruct (o_simd o); [|left; rewrite buffer_vec by assumption; eexists; split; [reflexivity|now rewrite map_length]|left; rewrite buffer_vec by assumption; eexists; split; [reflexivity|now rewrite map_length]].
  assert (Q : forall n i out, 0 <= i -> i + Z.of_nat n <= 160 -> length out = 160%nat ->
    (exists s, loop n i 1 (fun i aout => x <- rd fb i ;; s <- short_of_sample x ;; wr aout i s) out = Ok s /\ length s = 160%nat) \/ loop n i 1 (fun i aout => x <- rd fb i ;; s <- short_of_sample x ;; wr aout i s) out = UB BadConv).
  { induction n as [|n IH]; intros i out Hi Hn Lo; [left; eexists; split; [reflexivity|exact Lo]|]. cbn [loop]. rewrite Nat2Z.inj_succ in Hn.
    destruct (rd_ok fb i) as (x & ->); [lia|]. cbn [bind].
    destruct (to_short_safe x) as [(z & ->)| ->]; [|right; reflexivity]. cbn [bind]. rewrite wr_ok by lia. cbn [bind]. apply IH; [lia|lia|now rewrite set_nth_length]. }
  destruct (Q 160%nat 0 aout) as [A|A]; try lia; [left; exact A|right; split; [exact A|reflexivity]].
Qed.
Lemma shorten : forall o {X} (aout : list Z) (r : res (list f32 * X)) b x, r = Ok (b, x) -> length b = 160%nat -> length aout = 160%nat ->
  (exists s, then_short o aout r = Ok (s, x) /\ length s = 160%nat) \/ (then_short o aout r = UB BadConv /\ o_simd o = Scalar).
Proof.
  intros o X aout r b x -> Lb La. unfold then_short. destruct (convert_safe o b aout Lb La) as [(s & -> & Ls)|[-> E]]; [left; eauto|right; auto].
Qed.

(* ---- the thresholds ---- *)
Definition below (T : Z) (st : dstate) : Prop := p_amplitudeThreshold (cur_of st) <= T /\ p_amplitudeThreshold (prev_of st) <= T /\ p_amplitudeThreshold (enh_of st) <= T.
Definition roomy (T : Z) : Prop := 20480 <= T <= 2147483647 - 6000.
(* a decoding call on a sane state: done, or undone by a history of 56 harmonics *)
Definition served {S} (T : Z) (L : Z) (r : res (list S * list Z * dstate * tls)) : Prop :=
  (exists b s st' t', r = Ok (b, s, st', t') /\ sane_state st' /\ thread_ok t' /\ length b = 160%nat /\ below (T + 6000) st') \/ (r = UB OOB /\ L = 56).

Lemma imbe_wide : forall o a c st t, call_ok c -> sane_state st -> p_L (prev_of st) = 56 -> pitch7200 (ic_bits c) <= 207 -> 
  imbe_harmonics (pitch7200 (ic_bits c)) <> 23 -> imbe_harmonics (pitch7200 (ic_bits c)) <> 46 -> imbe_do o a c st t = UB OOB.
Proof.
  intros o a c [[cur prev] enh] t (Hd & Hn & LB) SS HL HP N1 N2. unfold imbe_do. rewrite imbe_process_eq. unfold imbe_parameters. cbv zeta. cbn [prev_of] in HL.
  rewrite imbe_decode_outside; [reflexivity|exact Hd|destruct (ic_c0_known c); apply SS|apply SS|exact HP|exact HL|exact N1|exact N2].
Qed.
Lemma imbe_below : forall o a c st t b s st' t' T, call_ok c -> sane_state st -> thread_ok t -> roomy T -> below T st -> imbe_do o a c st t = Ok (b, s, st', t') -> below (T + 6000) st'.
Proof.
  intros o a c [[cur prev] enh] t b s st' t' T (Hd & Hn & LB) SS TH [RT1 RT2] (BC & BP & BE) H. cbn [cur_of prev_of enh_of] in *. unfold imbe_do in H.
  destruct (imbe_process_inv _ _ _ _ _ _ _ _ _ _ _ _ _ _ _ _ Hd Hn SS LB H) as (bad & c1 & p1 & c' & k & HD & EC & SN & -> & _ & BS & _ & _ & _ & HT & _).
  destruct (imbe_decode_cases _ _ _ _ _ _ _ _ _ Hd (proj1 (proj1 SS)) (proj1 (proj1 (proj2 SS))) HD) as (_ & _ & _ & EP & EC1 & _).
  assert (A1 : p_amplitudeThreshold p1 = p_amplitudeThreshold prev) by (rewrite EP; reflexivity).
  assert (A2 : p_amplitudeThreshold c1 = p_amplitudeThreshold cur) by (rewrite EC1; unfold imbe_entry; destruct (ic_c0_known c); reflexivity).
  assert (A3 : p_amplitudeThreshold c' <= T).
  { rewrite EC. unfold picked. destruct (imbe_needs _ _ _ _); [destruct (_ <? _)|].
    - change (p_amplitudeThreshold p1 <= T). lia.
    - change (20480 <= T). lia.
    - change (p_amplitudeThreshold c1 <= T). lia. }
  assert (TT : 0 <= p_errorCountTotal c' <= 100) by apply SN.
  pose proof (Tm_bound _ _ _ _ TT HT) as B. unfold below. cbn [cur_of prev_of enh_of]. lia.
Qed.
Lemma imbe_served : forall o a c st t T, call_ok c -> sane_state st -> thread_ok t -> roomy T -> below T st -> served T (p_L (prev_of st)) (imbe_do o a c st t).
Proof.
  intros o a c st t T HC SS TH RT BT.
  assert (D : (pitch7200 (ic_bits c) <= 207 -> usable_history (imbe_harmonics (pitch7200 (ic_bits c))) (prev_of st)) \/
    (pitch7200 (ic_bits c) <= 207 /\ p_L (prev_of st) = 56 /\ imbe_harmonics (pitch7200 (ic_bits c)) <> 23 /\ imbe_harmonics (pitch7200 (ic_bits c)) <> 46)).
  { assert (SP : sane (prev_of st)) by (destruct st as [[x y] z]; apply SS). destruct SP as (W & L & _). unfold usable_history.
    set (k := imbe_harmonics _). destruct (Z.eq_dec (p_L (prev_of st)) 56) as [E|E]; [|left; intros _; split; [exact W|left; lia]].
    destruct (Z_le_gt_dec (pitch7200 (ic_bits c)) 207) as [P|P]; [|left; lia].
    destruct (Z.eq_dec k 23) as [E1|E1]; [left; intros _; split; [exact W|right; auto]|]. destruct (Z.eq_dec k 46) as [E2|E2]; [left; intros _; split; [exact W|right; auto]|].
    right. auto. }
  destruct D as [U|(P & E & N1 & N2)].
  - destruct (imbe_defined o a c st t HC SS TH) as (b & s & st' & t' & H & S1 & T1 & LB); [unfold threshold_room; destruct RT, BT as (_ & _ & ?); lia|exact U|].
    left. exists b, s, st', t'. split; [exact H|]. split; [exact S1|]. split; [exact T1|]. split; [exact LB|]. exact (imbe_below _ _ _ _ _ _ _ _ _ _ HC SS TH RT BT H).
  - right. split; [apply imbe_wide; assumption|exact E].
Qed.

Lemma begin_below : forall T st, 20480 <= T -> below T st -> below T (begin st).
Proof. intros T st HT B. destruct (begin_cases st) as [[-> _]|[-> _]]; [exact B|]. unfold below. change (20480 <= T /\ 20480 <= T /\ 20480 <= T). lia. Qed.
Lemma ambe_wide : forall r o a cl st t, good_exp2 o r -> ambe_ok cl -> sane_state st -> is_voice r cl -> p_L (prev_of (begin st)) = 56 ->
  harmonics r (ac_bits cl) <> 23 -> harmonics r (ac_bits cl) <> 46 -> do_ambe r o a cl st t = UB OOB.
Proof.
  intros r o a [d n c0 kn uv buf] st t HX (Hd & Hn & LB) SS HV HL N1 N2. cbn [ac_bits ac_errors ac_buf] in *.
  pose proof (sane_begin st SS) as SB. assert (WP : wf_parms (prev_of st)) by (destruct st as [[x y] z]; apply SS).
  destruct st as [[x y] z]. destruct (begin (x, y, z)) as [[c p] e] eqn:BG. cbn [prev_of] in *. destruct SB as (SC & SP & SE).
  assert (SW : sane (with_errors n (ambe_rate (p_errorRate p) n) c)) by (apply sane_with_errors; assumption).
  destruct r; cbn [do_ambe is_voice harmonics good_exp2] in *.
  - unfold do2450. cbn [ac_buf ac_errors ac_bits ac_uv ac_c0 ac_known]. unfold mbe_processAmbe2450Dataf_internal. rewrite ensure_ok by exact WP. cbn [bind]. rewrite BG. rewrite entry_eq.
    unfold kind_of in HV. cbn [ac_bits ac_errors] in HV. destruct (kind_cases d n Hd) as [(TT & N & E)|[(TT & N & E)|(NT & NE & E)]]; [destruct (tone_hz (tone_id d)); congruence|congruence|].
    rewrite ambe2450_outside; [reflexivity|exact Hd|apply SW|exact NT|exact NE|apply SP|exact HL|exact N1|exact N2].
  - unfold do2400. cbn [ac_buf ac_errors ac_bits ac_uv ac_c0 ac_known]. unfold mbe_processAmbe2400Dataf. rewrite ensure_ok by exact WP. cbn [bind]. rewrite BG. rewrite entry_eq.
    assert (HB : pitch2400 d < 126) by (unfold voice2400 in HV; cbn [ac_bits] in HV; lia). pose proof (pitch2400_range _ Hd) as PR. specialize (HX (pitch2400 d) ltac:(lia)).
    rewrite ambe2400_outside; [reflexivity|exact Hd|apply SW|exact HB|exact HX|apply SP|exact HL|exact N1|exact N2].
Qed.
Lemma voice_below : forall need n L w0 dg buf c p t b str st' T e, 20480 <= T -> below T (c, p, e) -> p_amplitudeThreshold (enh_of st') <= Z.max 20480 (p_amplitudeThreshold e) + 6000 ->
  voice_step need n L w0 dg buf c p t b str st' -> below (T + 6000) st'.
Proof.
  intros need n L w0 dg buf c p t b str st' T e HT (BC & BP & BE) HE H. cbn [cur_of prev_of enh_of] in *. unfold voice_step in H.
  destruct need; [destruct (_ <? _)|].
  - destruct H as (_ & KM & (_ & EQ & _)). destruct KM as (_ & _ & _ & _ & _ & _ & _ & _ & _ & _ & A). unfold below. rewrite <- EQ. lia.
  - destruct H as (_ & -> & _). unfold below. change (20480 <= T + 6000 /\ 20480 <= T + 6000 /\ 20480 <= T + 6000). lia.
  - destruct H as (_ & FM & (_ & EQ & _)). destruct FM as (_ & _ & _ & _ & _ & _ & _ & _ & _ & _ & _ & _ & A). unfold below. rewrite <- EQ. lia.
Qed.
Lemma ambe_below : forall r o a cl st t b s st' t' T, good_exp2 o r -> ambe_ok cl -> sane_state st -> thread_ok t -> roomy T -> below T st -> do_ambe r o a cl st t = Ok (b, s, st', t') -> below (T + 6000) st'.
Proof.
  intros r o a cl st t b s st' t' T HX HC SS TH [RT1 RT2] BT D. apply begin_below in BT; [|exact RT1]. 
  destruct (begin st) as [[x y] z] eqn:BG. pose proof BT as (BC & BP & BE). cbn [prev_of enh_of cur_of] in BC, BP, BE. destruct r; cbn [do_ambe harmonics good_exp2 is_voice] in *.
  - destruct (step2450_ok _ _ _ _ _ _ _ _ _ _ _ _ HC SS TH D BG) as (_ & _ & _ & _ & E & F). unfold step2450 in F. cbv zeta in F. destruct (kind_of cl) as [| |hz|].
    + eapply voice_below; eassumption.
    + destruct F as (_ & _ & ->). unfold below. change (20480 <= T + 6000 /\ 20480 <= T + 6000 /\ 20480 <= T + 6000). lia.
    + destruct F as (_ & _ & ->). unfold below, tone_turned. cbn [cur_of prev_of enh_of]. destruct (o_tones o); (split; [change (p_amplitudeThreshold x <= T + 6000); lia|lia]).
    + destruct F as (_ & F). destruct (_ <? _); [destruct F as (EP & EC & _)|destruct F as (-> & _)].
      * unfold below. rewrite EC, EP. split; [change (p_amplitudeThreshold x <= T + 6000); lia|]. lia.
      * unfold below. change (20480 <= T + 6000 /\ 20480 <= T + 6000 /\ 20480 <= T + 6000). lia.
  - assert (X : voice2400 cl = true -> exp2_close o (exponent2400 (pitch2400 (ac_bits cl)))).
    { intros V. apply HX. unfold voice2400 in V. destruct HC as (Hd & _). pose proof (pitch2400_range (ac_bits cl) Hd). lia. }
    destruct (step2400_ok _ _ _ _ _ _ _ _ _ _ _ _ HC SS TH X D BG) as (_ & _ & _ & _ & E & F). unfold step2400 in F. cbv zeta in F. destruct (voice2400 cl).
    + eapply voice_below; eassumption.
    + destruct F as (_ & _ & ->). unfold below. change (20480 <= T + 6000 /\ 20480 <= T + 6000 /\ 20480 <= T + 6000). lia.
Qed.
Lemma ambe_served : forall r o a cl st t T, good_exp2 o r -> ambe_ok cl -> sane_state st -> thread_ok t -> roomy T -> below T st -> served T (p_L (prev_of st)) (do_ambe r o a cl st t).
Proof.
  intros r o a cl st t T HX HC SS TH RT BT. pose proof (sane_begin st SS) as SB. assert (SP : sane (prev_of (begin st))) by (destruct (begin st) as [[x y] z]; apply SB).
  assert (D : (is_voice r cl -> usable_history (harmonics r (ac_bits cl)) (prev_of (begin st))) \/
    (is_voice r cl /\ p_L (prev_of (begin st)) = 56 /\ harmonics r (ac_bits cl) <> 23 /\ harmonics r (ac_bits cl) <> 46)).
  { destruct SP as (W & L & _). unfold usable_history. set (k := harmonics r _).
    destruct (Z.eq_dec (p_L (prev_of (begin st))) 56) as [E|E]; [|left; intros _; split; [exact W|left; lia]].
    destruct (Z.eq_dec k 23) as [E1|E1]; [left; intros _; split; [exact W|right; auto]|]. destruct (Z.eq_dec k 46) as [E2|E2]; [left; intros _; split; [exact W|right; auto]|].
    assert (V : is_voice r cl \/ ~ is_voice r cl). { destruct r; cbn [is_voice]; [destruct (kind_of cl); (left; reflexivity) || (right; discriminate)|destruct (voice2400 cl); auto]. }
    destruct V as [V|V]; [right; auto|left; intros C; destruct (V C)]. }
  destruct D as [U|(P & E & N1 & N2)].
  - destruct (begin_below T st (proj1 RT) BT) as (_ & _ & BE).
    destruct (ambe_defined r o a cl st t HX HC SS TH) as (b & s & st' & t' & H & S1 & T1 & LB); [unfold threshold_room; destruct RT; lia|exact U|].
    left. exists b, s, st', t'. split; [exact H|]. split; [exact S1|]. split; [exact T1|]. split; [exact LB|]. exact (ambe_below _ _ _ _ _ _ _ _ _ _ _ HX HC SS TH RT BT H).
  - right. split; [apply ambe_wide; assumption|]. destruct (begin_cases st) as [[EB _]|[EB _]]; rewrite EB in E; [exact E|]. change (15 = 56) in E. lia.
Qed.

(* ---- what the sets hold ---- *)
Definition model_set (m : parms) : Prop := wf_parms m /\ 0 <= p_L m <= 56 /\ pitch_in_range (p_w0 m) /\ noise_seed_ok (p_noiseSeed m) /\ 0 <= p_errorCountTotal m <= 100.
Definition holds (T : Z) (g : grade) (m : parms) : Prop :=
  match g with Raw => wf_parms m | Model => model_set m /\ p_amplitudeThreshold m <= T | Ready => sane m /\ p_amplitudeThreshold m <= T end.
Definition inv (T : Z) (g : Z -> grade) (h : heap) : Prop := forall a, holds T (g a) (h a).
Lemma sane_model : forall m, sane m -> model_set m. Proof. intros m (A & B & C & D & E & _). repeat split; try apply A; try apply B; try apply C; try apply E; exact D. Qed.
Lemma holds_wf : forall T g m, holds T g m -> wf_parms m. Proof. intros T [] m H; [exact H|apply H|apply H]. Qed.
Lemma holds_filled : forall T g m, filled_in g -> holds T g m -> model_set m /\ p_amplitudeThreshold m <= T.
Proof. intros T [] m N H; [destruct N; reflexivity|exact H|destruct H; split; [apply sane_model|]; assumption]. Qed.
Lemma holds_more : forall T T' g m, T <= T' -> holds T g m -> holds T' g m.
Proof. intros T T' [] m HT H; [exact H| |]; (destruct H; split; [assumption|lia]). Qed.
Lemma inv_more : forall T T' g h, T <= T' -> inv T g h -> inv T' g h. Proof. intros T T' g h HT H a. exact (holds_more _ _ _ _ HT (H a)). Qed.
Lemma inv_put : forall T g h a m, inv T g h -> holds T (g a) m -> inv T g (put a m h).
Proof. intros T g h a m H Hm x. unfold put. destruct (Z.eqb_spec x a) as [->|N]; [exact Hm|apply H]. Qed.

(* ---- the bare decoders ---- *)
Lemma holds_change : forall T T' g m m', filled_in g -> holds T g m -> wf_parms m' -> p_L m' = p_L m -> p_w0 m' = p_w0 m -> noise_seed_ok (p_noiseSeed m') -> p_errorCountTotal m' = p_errorCountTotal m ->
  p_repeat m' = p_repeat m -> p_repeatCount m' = p_repeatCount m -> p_amplitudeThreshold m' <= T' -> holds T' g m'.
Proof.
  intros T T' g m m' N H W EL EW HS ET ER EC HT. destruct g; [destruct N; reflexivity| |]; destruct H as [H _]; (split; [|exact HT]).
  - destruct H as (_ & A & B & _ & C). unfold model_set. rewrite EL, EW, ET. auto.
  - destruct H as (_ & A & B & _ & C & D). unfold sane. rewrite EL, EW, ET, ER, EC. auto 6.
Qed.
Definition decoded_to (cur prev cur' prev' : parms) : Prop :=
  model_set cur' /\ p_amplitudeThreshold cur' = p_amplitudeThreshold cur /\ wf_parms prev' /\ prev' = set_log2Ml (p_log2Ml prev') (set_Ml (p_Ml prev') prev).
Definition decode_served (r : res (Z * parms * parms)) (cur prev : parms) : Prop :=
  (exists bad cur' prev', r = Ok (bad, cur', prev') /\ decoded_to cur prev cur' prev') \/ (r = UB OOB /\ p_L prev = 56).
Lemma unchanged : forall cur prev, model_set cur -> wf_parms prev -> decoded_to cur prev (set_repeat (p_repeat prev) cur) prev.
Proof. intros cur prev H W. split; [exact H|]. split; [reflexivity|]. split; [exact W|now destruct prev]. Qed.
Lemma history_split : forall k m, model_set m -> usable_history k m \/ (p_L m = 56 /\ k <> 23 /\ k <> 46).
Proof.
  intros k m (W & L & _). unfold usable_history. destruct (Z.eq_dec (p_L m) 56) as [E|E]; [|left; split; [exact W|left; lia]].
  destruct (Z.eq_dec k 23) as [E1|E1]; [left; split; [exact W|right; auto]|]. destruct (Z.eq_dec k 46) as [E2|E2]; [left; split; [exact W|right; auto]|right; auto].
Qed.
Lemma imbe_decode_safe : forall o d cur prev, is_bits 88 d -> model_set cur -> model_set prev -> decode_served (mbe_decodeImbe4400Parms o d cur prev) cur prev.
Proof.
  intros o d cur prev Hd MC MP. destruct (Z_lt_ge_dec 207 (pitch7200 d)) as [A|A].
  - left. rewrite imbe_decode_bad by assumption. do 3 eexists. split; [reflexivity|]. apply unchanged; [exact MC|apply MP].
  - destruct (history_split (imbe_harmonics (pitch7200 d)) prev MP) as [U|(E & N1 & N2)].
    + destruct (imbe_decode_defined o d cur prev Hd (proj1 MC) ltac:(lia) U) as (bad & c1 & p1 & H). left. exists bad, c1, p1. split; [exact H|].
      destruct MC as (WC & LC & PC & NC & TC). destruct MP as (WP & _).
      destruct (imbe_decode_inv _ _ _ _ _ _ _ Hd ltac:(lia) (proj1 WC) H) as (_ & AC & EW).
      destruct AC as (E1 & _ & _ & _ & [S1 _] & [S2 _] & [S3 _] & E2 & [X1 _] & [X2 _] & E3).
      pose proof (pitch7200_range d Hd) as R. pose proof (harmonics_range (pitch7200 d) ltac:(lia)) as HR.
      split; [|split; [rewrite E2; reflexivity|split; [|exact E3]]].
      * unfold model_set. rewrite E1, EW. split; [unfold wf_parms in *; rewrite S1, S2, S3; rewrite E2; fields; tauto|]. split; [lia|]. split; [apply imbe_pitch_range; lia|]. rewrite E2. fields. auto.
      * unfold wf_parms in *. rewrite X1, X2. rewrite E3. fields. tauto.
    + right. split; [apply imbe_decode_outside; auto; [apply MC|apply MP|lia]|exact E].
Qed.
Lemma accepted_model : forall L w0 g v cur prev cur' prev', ambe_accepted L w0 g v cur prev cur' prev' -> model_set cur -> model_set prev -> 9 <= L <= 56 -> pitch_in_range w0 -> decoded_to cur prev cur' prev'.
Proof.
  intros L w0 g v cur prev cur' prev' (AL & AW & AR & AG & AV & (V1 & _) & (M1 & _) & (G1 & _) & EC & (X1 & _) & (X2 & _) & EP) (WM & LM & PM & SM & TM) (WS & _) HL HW.
  split; [|split; [rewrite EC; reflexivity|split; [|exact EP]]].
  - unfold model_set. rewrite AL, AW. split; [unfold wf_parms in *; rewrite V1, M1, G1, EC; fields; tauto|]. split; [lia|]. split; [exact HW|]. rewrite EC. fields. auto.
  - unfold wf_parms in *. rewrite X1, X2, EP. fields. tauto.
Qed.
Lemma decode2450_safe : forall o d cur prev, is_bits 49 d -> model_set cur -> model_set prev -> decode_served (mbe_decodeAmbe2450Parms o d cur prev) cur prev.
Proof.
  intros o d cur prev Hd MC MP. unfold mbe_decodeAmbe2450Parms. pose proof MC as (WC & _). pose proof MP as (WP & _).
  destruct (kind_cases d (-1) Hd) as [(TT & N & _)|[(TT & N & _)|(NT & NE & _)]].
  - left. rewrite ambe2450_tone by (assumption || lia). do 3 eexists. split; [reflexivity|]. apply unchanged; assumption.
  - left. rewrite ambe2450_erasure by assumption. do 3 eexists. split; [reflexivity|]. apply unchanged; assumption.
  - assert (HR : 9 <= harmonics2450 (pitch2450 d) <= 56) by (apply harmonics2450_bits; assumption).
    assert (HW : pitch_in_range (w0_2450 (pitch2450 d))) by (apply w0_range; pose proof (pitch2450_range _ Hd); unfold erasure2450 in NE; lia).
    destruct (history_split (harmonics2450 (pitch2450 d)) prev MP) as [U|(E & N1 & N2)].
    + destruct (ambe2450_defined o d cur prev (-1) Hd WC U) as (bad & c1 & p1 & H). left. exists bad, c1, p1. split; [exact H|].
      destruct (ambe2450_accepted _ _ _ _ _ _ _ _ Hd (proj1 WC) NT NE H) as [_ AC]. exact (accepted_model _ _ _ _ _ _ _ _ AC MC MP HR HW).
    + right. split; [apply ambe2450_outside; auto; apply WC|exact E].
Qed.
Lemma decode2400_safe : forall o d cur prev, good_exp2 o R2400 -> is_bits 49 d -> model_set cur -> model_set prev -> decode_served (mbe_decodeAmbe2400Parms o d cur prev) cur prev.
Proof.
  intros o d cur prev HX Hd MC MP. pose proof MC as (WC & _). pose proof MP as (WP & _). pose proof (pitch2400_range d Hd) as PR.
  destruct (Z_lt_ge_dec (pitch2400 d) 126) as [A|A].
  - specialize (HX (pitch2400 d) ltac:(lia)). pose proof (harmonics2400_range d Hd A) as HR.
    assert (HW : pitch_in_range (radians (exp2f o (exponent2400 (pitch2400 d))))) by (apply f0_range; [lia|exact HX]).
    destruct (history_split (harmonics2400 (pitch2400 d)) prev MP) as [U|(E & N1 & N2)].
    + destruct (ambe2400_defined o d cur prev Hd WC (fun _ => conj HX U)) as (bad & c1 & p1 & H). left. exists bad, c1, p1. split; [exact H|].
      destruct (ambe2400_accepted _ _ _ _ _ _ _ Hd (proj1 WC) A HX H) as [_ AC]. exact (accepted_model _ _ _ _ _ _ _ _ AC MC MP HR HW).
    + right. split; [apply ambe2400_outside; auto; apply WC|exact E].
  - left. assert (D : 5 <= tone2400 d <= 122 \/ ~ 5 <= tone2400 d <= 122) by lia. destruct D as [D|D].
    { rewrite ambe2400_tone by (assumption || lia). do 3 eexists. split; [reflexivity|]. apply unchanged; assumption. }
    assert (D2 : 128 <= tone2400 d <= 163 \/ ~ 128 <= tone2400 d <= 163) by lia. destruct D2 as [D2|D2].
    { rewrite ambe2400_dual by (assumption || lia). do 3 eexists. split; [reflexivity|]. apply unchanged; assumption. }
    destruct (ambe2400_silence o d cur prev Hd (proj1 WC) ltac:(lia) D D2) as (V & LV & _ & _ & ->). do 3 eexists. split; [reflexivity|].
    split; [|split; [reflexivity|split; [exact WP|now destruct prev]]]. destruct MC as (_ & LC & PC & NC & TC). unfold model_set. fields.
    split; [unfold wf_parms in *; fields; tauto|]. split; [lia|]. split; [vm_compute; repeat split|]. auto.
Qed.
Lemma decode_safe : forall f o d cur prev, good_exp2 o R2400 -> is_bits (data_bits f) d -> model_set cur -> model_set prev -> decode_served (do_decode f o d cur prev) cur prev.
Proof. intros [] o d cur prev HX Hd MC MP; [apply imbe_decode_safe|apply decode2450_safe|apply decode2400_safe]; assumption. Qed.

(* ---- the other single calls ---- *)
Lemma render_any : forall o buf d cur, is_bits 49 d -> length buf = 160%nat -> exists b x y, mbe_synthesizeTonef o buf d cur = Ok (b, set_un x (set_swn y cur)).
Proof.
  intros o buf d cur Hd LB. assert (K : cur = set_un (p_un cur) (set_swn (p_swn cur) cur)) by now destruct cur.
  destruct (o_tones o) eqn:HT; [|rewrite synth_off by assumption; exists (repeat (S754_zero false) 160), (p_un cur), (p_swn cur); now rewrite <- K].
  destruct (tone_hz (tone_id d)) as [hz|] eqn:E; [rewrite (synth_ok o buf d cur hz) by assumption; eauto|].
  rewrite synth_fields by assumption. pose proof (entry (tone_id d) (tone_id_range d Hd)) as Q. rewrite E in Q. destruct Q as (-> & _). rewrite silence_ok by assumption. cbn [bind].
  exists (repeat (S754_zero false) 160), (p_un cur), (p_swn cur). now rewrite <- K.
Qed.
Lemma dstar_any : forall o buf id cur, length buf = 160%nat -> exists b x y, mbe_synthesizeTonefdstar o buf cur id = Ok (b, set_un x (set_swn y cur)).
Proof.
  intros o buf id cur LB. assert (K : cur = set_un (p_un cur) (set_swn (p_swn cur) cur)) by now destruct cur.
  assert (S : exists b x y, Ok (repeat (S754_zero false) 160, cur) = Ok (b, set_un x (set_swn y cur)) :> res (list f32 * parms)).
  { exists (repeat (S754_zero false) 160), (p_un cur), (p_swn cur). now rewrite <- K. }
  destruct (o_tones o) eqn:HT; [|rewrite dstar_off by assumption; exact S].
  destruct (Z_le_dec 5 id) as [A|A]; [destruct (Z_le_dec id 122) as [B|B]|].
  - destruct (tone_hz id) as [hz|] eqn:E; [rewrite (dstar_ok o buf cur id hz) by (assumption || lia); eauto|].
    exfalso. pose proof (entry id ltac:(lia)) as Q. rewrite E in Q. destruct Q as (_ & Q).
    apply orb_false_iff in Q as [Q _]. apply orb_false_iff in Q as [Q Q3]. apply orb_false_iff in Q as [Q1 Q2]. apply Z.eqb_neq in Q1, Q2. lia.
  - unfold mbe_synthesizeTonefdstar. rewrite HT. cbn [negb]. unfold dstar_freq. replace (id =? 5) with false by lia. replace (id =? 6) with false by lia. replace ((7 <=? id) && (id <=? 122)) with false by lia. cbv iota zeta.
    change (fle fzero fzero) with true. cbv iota. rewrite silence_ok by assumption. exact S.
  - unfold mbe_synthesizeTonefdstar. rewrite HT. cbn [negb]. unfold dstar_freq. replace (id =? 5) with false by lia. replace (id =? 6) with false by lia. replace ((7 <=? id) && (id <=? 122)) with false by lia. cbv iota zeta.
    change (fle fzero fzero) with true. cbv iota. rewrite silence_ok by assumption. exact S.
Qed.
Lemma seed_thread : forall s t, thread_ok (mbe_setThreadRngSeed s t).
Proof.
  intros s t. unfold thread_ok, cold_seed, mbe_setThreadRngSeed, mbe_seedUnvoicedNoiseLcg, mbe_seedComfortNoiseRng. cbn [t_uv_override t_uv_seed]. apply Z.mod_pos_bound. lia.
Qed.
Lemma speech_safe : forall o buf a c p uv t T, length buf = 160%nat -> model_set c -> model_set p -> roomy T -> p_amplitudeThreshold p <= T -> thread_ok t ->
  exists b c' p' t', mbe_synthesizeSpeechf o buf a c p uv t = Ok (b, c', p', t') /\ length b = 160%nat /\ thread_ok t' /\ but_speech c c' /\ but_prev p p' /\ wf_parms c' /\ wf_parms p' /\
    noise_seed_ok (p_noiseSeed c') /\ p_amplitudeThreshold c' <= T + 6000.
Proof.
  intros o buf a c p uv t T LB (WC & LC & PC & SC & TC) (WP & LP & PP & SP & TP) RT HT TH.
  destruct (Tm_total (p_errorRate c) (p_errorCountTotal c) (p_amplitudeThreshold p) TC) as (T1 & ET & BT); [destruct RT; lia|].
  destruct (speech_total o buf a c p uv t T1 WC WP LC LP (pitch_ok _ PC) SC TH LB ET) as (b & c' & p' & t' & H & S1 & S2).
  destruct (speech_effect _ _ _ _ _ _ _ _ _ _ _ WC WP H) as (B1 & B2 & W1 & W2). destruct (speech_bounded _ _ _ _ _ _ _ _ _ _ _ LB H) as (B3 & _).
  pose proof (speech_threshold _ _ _ _ _ _ _ _ _ _ _ H) as H2. rewrite ET in H2. injection H2 as E.
  exists b, c', p', t'. repeat split; try assumption; try apply W1; try apply W2; try apply S2. destruct RT; lia.
Qed.
Lemma speech_holds : forall T gc gp c p c' p', filled_in gc -> filled_in gp -> holds T gc c -> holds T gp p -> but_speech c c' -> but_prev p p' -> wf_parms c' -> wf_parms p' -> noise_seed_ok (p_noiseSeed c') ->
  p_amplitudeThreshold c' <= T + 6000 -> holds (T + 6000) gc c' /\ holds (T + 6000) gp p'.
Proof.
  intros T gc gp c p c' p' NC NP HC HP BC BP WC WP SC TC. destruct (holds_filled _ _ _ NP HP) as ((_ & _ & _ & SP & _) & TP).
  split; [apply (holds_change T _ gc c c')|apply (holds_change T _ gp p p')]; try assumption; try (rewrite BC; reflexivity); try (rewrite BP; reflexivity).
  - rewrite BP. exact SP.
  - rewrite BP. change (p_amplitudeThreshold p <= T + 6000). lia.
Qed.
Lemma enhance_safe : forall o a m t, model_set m -> exists m' t', mbe_spectralAmpEnhance o a m t = Ok (m', t') /\ m' = set_Ml (p_Ml m') m /\ wf_parms m' /\ (thread_ok t -> thread_ok t').
Proof.
  intros o a m t (W & L & _). destruct (enhance_ok o a m t) as (c1 & xs & HE & (E1 & (E2 & _) & _)); [apply W|exact L|]. do 2 eexists. split; [exact HE|]. split; [exact E1|]. split.
  - unfold wf_parms in *. rewrite E1. fields. rewrite E2. exact W.
  - intros TH. unfold mbe_setPreEnhRm0. destruct (fge _ _); exact TH.
Qed.
Lemma smooth_safe : forall o a c p t T, model_set c -> model_set p -> roomy T -> p_amplitudeThreshold p <= T -> exists c' t', mbe_applyAdaptiveSmoothing o a c p t = Ok (c', t') /\ but_smoothing c c' /\ wf_parms c' /\
  p_amplitudeThreshold c' <= T + 6000 /\ (thread_ok t -> thread_ok t').
Proof.
  intros o a c p t T (WC & LC & PC & SC & TC) _ RT HT.
  destruct (Tm_total (p_errorRate c) (p_errorCountTotal c) (p_amplitudeThreshold p) TC) as (T1 & ET & BT); [destruct RT; lia|].
  destruct (smoothing_total o a c p t T1 WC LC ET) as (c' & t' & H). exists c', t'. split; [exact H|]. split; [exact (smoothing_but _ _ _ _ _ _ _ H)|]. split; [exact (wf_smoothing _ _ _ _ _ _ _ H WC)|]. split.
  - apply smoothing_inv in H as (rm0 & V & Am & T2 & M & _ & _ & _ & HT2 & _ & ->). rewrite ET in HT2. injection HT2 as <-. change (T1 <= T + 6000). destruct RT; lia.
  - intros TH. rewrite (smoothing_tls _ _ _ _ _ _ _ H). destruct (pending t a); exact TH.
Qed.

(* ---- processing calls ---- *)
Lemma exp2_any : forall o, good_exp2 o R2400 -> forall r, good_exp2 o r. Proof. intros o H []; [exact I|exact H]. Qed.
Lemma dataf_served : forall f o a b errs n d st uv t T, good_exp2 o R2400 -> length b = 160%nat -> 0 <= n <= 100 -> is_bits (data_bits f) d -> sane_state st -> thread_ok t -> roomy T -> below T st ->
  served T (p_L (prev_of st)) (do_dataf f o a b errs n d st uv t).
Proof.
  intros [] o a b errs n d st uv t T HX LB Hn Hd SS TH RT BT.
  - exact (imbe_served o a (mkimbe_call d n 0 false uv b) st t T (conj Hd (conj Hn LB)) SS TH RT BT).
  - exact (ambe_served R2450 o a (mkambe_call d n 0 false uv b) st t T I (conj Hd (conj Hn LB)) SS TH RT BT).
  - exact (ambe_served R2400 o a (mkambe_call d n errs true uv b) st t T HX (conj Hd (conj Hn LB)) SS TH RT BT).
Qed.
Definition framed {S} (r : res (frame_out S)) : res (list S * list Z * dstate * tls) := match r with Ok x => Ok (fo_aout x, fo_str x, fo_st x, fo_tls x) | UB w => UB w end.
Lemma amounts_framed : forall f g c0 n d, amounts_to f g c0 n d -> framed f = g.
Proof. intros f [[[[b s] st] t]|w] c0 n d H; cbn [amounts_to] in H; [|rewrite H; reflexivity]. destruct H as (x & -> & <- & <- & _ & _ & _ & <- & <-). reflexivity. Qed.
Lemma count4_state : forall c4 T st, sane_state st -> below T st -> let st1 := (set_errorCount4 c4 (cur_of st), prev_of st, enh_of st) in sane_state st1 /\ below T st1 /\ p_L (prev_of st1) = p_L (prev_of st).
Proof. intros c4 T [[x y] z] SS BT. cbn [cur_of prev_of enh_of]. split; [exact SS|]. split; [exact BT|reflexivity]. Qed.
Lemma framef_served : forall f o a b fr d st uv t T, good_exp2 o R2400 -> length b = 160%nat -> frame_shape f fr -> length d = frame_bits f -> sane_state st -> thread_ok t -> roomy T -> below T st ->
  served T (p_L (prev_of st)) (framed (do_framef f o a b fr d st uv t)).
Proof.
  intros [] o a b fr d st uv t T HX LB HF HD SS TH RT BT; cbn [do_framef frame_shape frame_bits] in *.
  - destruct (any7200 o a fr d b uv st t HF HD) as (d1 & c0 & n & c4 & Hd & B1 & B2 & B3 & AM). rewrite (amounts_framed _ _ _ _ _ AM).
    destruct (count4_state c4 T st SS BT) as (S1 & T1 & <-). apply imbe_served; auto. split; [exact Hd|]. split; [cbn; lia|exact LB].
  - destruct (any7100 o a fr d b uv st t HF HD) as (d1 & c0 & n & c4 & Hd & B1 & B2 & B3 & AM). rewrite (amounts_framed _ _ _ _ _ AM).
    destruct (count4_state c4 T st SS BT) as (S1 & T1 & <-). apply imbe_served; auto. split; [exact Hd|]. split; [cbn; lia|exact LB].
  - destruct (any2450 o a fr d b uv st t HF HD) as (d1 & c0 & n & Hd & B1 & B2 & AM). rewrite (amounts_framed _ _ _ _ _ AM).
    apply (ambe_served R2450); auto; [exact I|]. split; [exact Hd|]. split; [cbn; lia|exact LB].
  - destruct (any2400 o a fr d b uv st t HF HD) as (d1 & c0 & n & Hd & B1 & B2 & AM). rewrite (amounts_framed _ _ _ _ _ AM).
    apply (ambe_served R2400); auto. split; [exact Hd|]. split; [cbn; lia|exact LB].
Qed.
(* the 16-bit form *)
Definition served_short (o : oracle) (T L : Z) (r : res (list Z * list Z * dstate * tls)) : Prop := served T L r \/ (r = UB BadConv /\ o_simd o = Scalar).
Lemma short_served : forall o aout T L f r, length aout = 160%nat -> served T L f -> assoc4 r = then_short o aout (assoc4 f) -> served_short o T L r.
Proof.
  intros o aout T L f r La [(b & s & st' & t' & -> & S1 & T1 & LB & BT)|[-> E]] H.
  - cbn [assoc4] in H. destruct (shorten o aout (Ok (b, (s, st', t'))) b (s, st', t') eq_refl LB La) as [(z & Ez & Lz)|[Ez EO]]; rewrite Ez in H.
    + left. left. destruct r as [[[[z' s'] st''] t'']|w]; [|discriminate H]. cbn [assoc4] in H. injection H as -> -> -> ->. exists z, s, st', t'. split; [reflexivity|]. split; [exact S1|]. split; [exact T1|]. split; [exact Lz|exact BT].
    + right. split; [|exact EO]. destruct r as [[[[z' s'] st''] t'']|w]; [discriminate H|]. cbn [assoc4] in H. congruence.
  - left. right. split; [|exact E]. destruct r as [[[[z' s'] st''] t'']|w]; [discriminate H|]. cbn [assoc4 then_short] in H. congruence.
Qed.
