(* The phases of the tone generators (un, swn) have no influence on voice frames. *)
From Coq Require Import ZArith List Bool Lia.
From Verif Require Import Res F32 MFrame MParms MAdaptive MUnvoiced MSynth MImbe MAmbe SpecEcc SpecFrame SpecState SpecTone SpecMachine SpecAmbe SpecAmbeMachine PRun PSpeech.
Import ListNotations.
Local Open Scope Z_scope.

(* both results are UB in the same way, or both are related values *)
Inductive both {A B} (R : A -> B -> Prop) : res A -> res B -> Prop :=
| both_ok : forall x y, R x y -> both R (Ok x) (Ok y)
| both_ub : forall w, both R (UB w) (UB w).
Lemma both_bind : forall {A B C D} (R : A -> B -> Prop) (S : C -> D -> Prop) x y f g,
  both R x y -> (forall a b, R a b -> both S (f a) (g b)) -> both S (bind x f) (bind y g).
Proof. intros A B C D R S x y f g [a b H|w] K; cbn [bind]; [apply K, H|constructor]. Qed.
Lemma both_same : forall {A C D} (S : C -> D -> Prop) (x : res A) f g, (forall a, both S (f a) (g a)) -> both S (bind x f) (bind x g).
Proof. intros A C D S [a|w] f g K; cbn [bind]; [apply K|constructor]. Qed.
Lemma both_eq : forall {A} (x : res A), both eq x x.
Proof. intros A [a|w]; constructor. reflexivity. Qed.
Lemma both_loop : forall {A B} (R : A -> B -> Prop) f g, (forall k x y, R x y -> both R (f k x) (g k y)) ->
  forall n i st x y, R x y -> both R (loop n i st f x) (loop n i st g y).
Proof.
  intros A B R f g K. induction n as [|n IH]; intros i st x y H; cbn [loop]; [constructor; exact H|].
  eapply both_bind; [apply K, H|]. intros a b E. apply IH, E.
Qed.
Lemma both_for : forall {A B} (R : A -> B -> Prop) f g lo hi x y, (forall k x y, R x y -> both R (f k x) (g k y)) -> R x y -> both R (for_up lo hi f x) (for_up lo hi g y).
Proof. intros. unfold for_up. now apply both_loop. Qed.
Lemma both_inv : forall {A B} (R : A -> B -> Prop) x y a, both R x y -> x = Ok a -> exists b, y = Ok b /\ R a b.
Proof. intros A B R x y a [p q H|w] E; [injection E as <-; eauto|discriminate]. Qed.

(* alike but for the tone phases, and with k = true also but for the repeat counters *)
Definition strip (k : bool) (m : parms) : parms := let m := set_un 0 (set_swn 0 m) in if k then set_repeatCount 0 (set_repeat 0 m) else m.
Definition sim (k : bool) (m n : parms) : Prop := strip k m = strip k n.
Definition fields_same (m n : parms) : Prop :=
  p_w0 m = p_w0 n /\ p_L m = p_L n /\ p_K m = p_K n /\ p_Vl m = p_Vl n /\ p_Ml m = p_Ml n /\ p_log2Ml m = p_log2Ml n /\ p_PHIl m = p_PHIl n /\ p_PSIl m = p_PSIl n /\ p_gamma m = p_gamma n /\
  p_localEnergy m = p_localEnergy n /\ p_amplitudeThreshold m = p_amplitudeThreshold n /\ p_errorRate m = p_errorRate n /\ p_errorCountTotal m = p_errorCountTotal n /\ p_errorCount4 m = p_errorCount4 n /\
  p_mutingThreshold m = p_mutingThreshold n /\ p_previousUw m = p_previousUw n /\ p_noiseSeed m = p_noiseSeed n /\ p_noiseOverlap m = p_noiseOverlap n.
Lemma sim_fields : forall k m n, sim k m n -> fields_same m n.
Proof. intros k [] [] H. unfold sim, strip in H. destruct k; cbv [set_un set_swn set_repeat set_repeatCount] in H; cbn in H; injection H; intros; subst; cbv [fields_same]; cbn; repeat split. Qed.
Lemma sim_repeats : forall m n, sim false m n -> p_repeat m = p_repeat n /\ p_repeatCount m = p_repeatCount n.
Proof. intros [] [] H. unfold sim, strip in H. cbv [set_un set_swn] in H; cbn in H; injection H; intros; subst; cbn; auto. Qed.
Lemma sim_intro : forall m n, fields_same m n -> sim true m n.
Proof. intros [] [] H. cbv [fields_same] in H; cbn in H. decompose [and] H. subst. reflexivity. Qed.
Lemma sim_strong : forall m n, sim true m n -> p_repeat m = p_repeat n -> p_repeatCount m = p_repeatCount n -> sim false m n.
Proof. intros [] [] H. unfold sim, strip in H. cbv [set_un set_swn set_repeat set_repeatCount] in H; cbn in H; injection H; intros; cbn in *; subst; reflexivity. Qed.
Lemma sim_refl : forall k m, sim k m m. Proof. reflexivity. Qed.
Lemma sim_weak : forall k m n, sim k m n -> sim true m n.
Proof. intros k m n H. apply sim_intro. eapply sim_fields, H. Qed.

Ltac setter := let H := fresh in intros [] [] [] ? H; unfold sim, strip in H |- *; cbv [set_un set_swn set_repeat set_repeatCount] in H; cbn in H; injection H; intros; subst; reflexivity.
Lemma sim_w0 : forall k m n v, sim k m n -> sim k (set_w0 v m) (set_w0 v n). Proof. setter. Qed.
Lemma sim_L : forall k m n v, sim k m n -> sim k (set_L v m) (set_L v n). Proof. setter. Qed.
Lemma sim_K : forall k m n v, sim k m n -> sim k (set_K v m) (set_K v n). Proof. setter. Qed.
Lemma sim_Vl : forall k m n v, sim k m n -> sim k (set_Vl v m) (set_Vl v n). Proof. setter. Qed.
Lemma sim_Ml : forall k m n v, sim k m n -> sim k (set_Ml v m) (set_Ml v n). Proof. setter. Qed.
Lemma sim_log2Ml : forall k m n v, sim k m n -> sim k (set_log2Ml v m) (set_log2Ml v n). Proof. setter. Qed.
Lemma sim_PHIl : forall k m n v, sim k m n -> sim k (set_PHIl v m) (set_PHIl v n). Proof. setter. Qed.
Lemma sim_PSIl : forall k m n v, sim k m n -> sim k (set_PSIl v m) (set_PSIl v n). Proof. setter. Qed.
Lemma sim_gamma : forall k m n v, sim k m n -> sim k (set_gamma v m) (set_gamma v n). Proof. setter. Qed.
Lemma sim_un : forall k m n v, sim k m n -> sim k (set_un v m) (set_un v n). Proof. setter. Qed.
Lemma sim_swn : forall k m n v, sim k m n -> sim k (set_swn v m) (set_swn v n). Proof. setter. Qed.
Lemma sim_repeat : forall k m n v, sim k m n -> sim k (set_repeat v m) (set_repeat v n). Proof. setter. Qed.
Lemma sim_repeatCount : forall k m n v, sim k m n -> sim k (set_repeatCount v m) (set_repeatCount v n). Proof. setter. Qed.
Lemma sim_localEnergy : forall k m n v, sim k m n -> sim k (set_localEnergy v m) (set_localEnergy v n). Proof. setter. Qed.
Lemma sim_amplitudeThreshold : forall k m n v, sim k m n -> sim k (set_amplitudeThreshold v m) (set_amplitudeThreshold v n). Proof. setter. Qed.
Lemma sim_previousUw : forall k m n v, sim k m n -> sim k (set_previousUw v m) (set_previousUw v n). Proof. setter. Qed.
Lemma sim_noiseSeed : forall k m n v, sim k m n -> sim k (set_noiseSeed v m) (set_noiseSeed v n). Proof. setter. Qed.
Lemma sim_noiseOverlap : forall k m n v, sim k m n -> sim k (set_noiseOverlap v m) (set_noiseOverlap v n). Proof. setter. Qed.
#[export] Hint Resolve sim_w0 sim_L sim_K sim_Vl sim_Ml sim_log2Ml sim_PHIl sim_PSIl sim_gamma sim_un sim_swn sim_repeat sim_repeatCount sim_localEnergy sim_amplitudeThreshold sim_previousUw sim_noiseSeed sim_noiseOverlap sim_refl : sim.

(* replace the fields of n by those of m *)
Ltac align H := let F := fresh in pose proof (sim_fields _ _ _ H) as F; cbv [fields_same] in F; decompose [and] F; clear F;
  repeat match goal with E : p_w0 _ = p_w0 _ |- _ => rewrite <- ?E; clear E | E : p_L _ = p_L _ |- _ => rewrite <- ?E; clear E | E : p_K _ = p_K _ |- _ => rewrite <- ?E; clear E
  | E : p_Vl _ = p_Vl _ |- _ => rewrite <- ?E; clear E | E : p_Ml _ = p_Ml _ |- _ => rewrite <- ?E; clear E | E : p_log2Ml _ = p_log2Ml _ |- _ => rewrite <- ?E; clear E
  | E : p_PHIl _ = p_PHIl _ |- _ => rewrite <- ?E; clear E | E : p_PSIl _ = p_PSIl _ |- _ => rewrite <- ?E; clear E | E : p_gamma _ = p_gamma _ |- _ => rewrite <- ?E; clear E
  | E : p_localEnergy _ = p_localEnergy _ |- _ => rewrite <- ?E; clear E | E : p_amplitudeThreshold _ = p_amplitudeThreshold _ |- _ => rewrite <- ?E; clear E
  | E : p_errorRate _ = p_errorRate _ |- _ => rewrite <- ?E; clear E | E : p_errorCountTotal _ = p_errorCountTotal _ |- _ => rewrite <- ?E; clear E | E : p_errorCount4 _ = p_errorCount4 _ |- _ => rewrite <- ?E; clear E
  | E : p_mutingThreshold _ = p_mutingThreshold _ |- _ => rewrite <- ?E; clear E | E : p_previousUw _ = p_previousUw _ |- _ => rewrite <- ?E; clear E
  | E : p_noiseSeed _ = p_noiseSeed _ |- _ => rewrite <- ?E; clear E | E : p_noiseOverlap _ = p_noiseOverlap _ |- _ => rewrite <- ?E; clear E end.
Ltac flat := cbn [p_w0 p_L p_K p_Vl p_Ml p_log2Ml p_PHIl p_PSIl p_gamma p_un p_repeat p_swn p_localEnergy p_amplitudeThreshold p_errorRate p_errorCountTotal p_errorCount4 p_repeatCount p_mutingThreshold p_previousUw p_noiseSeed p_noiseOverlap
  set_w0 set_L set_K set_Vl set_Ml set_log2Ml set_PHIl set_PSIl set_gamma set_un set_swn set_repeat set_repeatCount set_localEnergy set_amplitudeThreshold set_previousUw set_noiseSeed set_noiseOverlap].
Definition sim2 (k j : bool) (x y : parms * parms) : Prop := sim k (fst x) (fst y) /\ sim j (snd x) (snd y).

Lemma extend_sim : forall k from to m n, sim k m n -> both (sim k) (extend_bands from to m) (extend_bands from to n).
Proof.
  intros k from to m n H. unfold extend_bands. apply both_for; [|exact H]. clear. intros l m n H. align H.
  apply both_same. intros a. apply both_same. intros b. constructor. auto with sim.
Qed.
Lemma phase_sim : forall cw0 pw0 u noise l x y, sim2 false false x y -> both (sim2 false false) (update_phase cw0 pw0 u noise l x) (update_phase cw0 pw0 u noise l y).
Proof.
  intros cw0 pw0 u noise l [m n] [m' n'] [H K]. cbn [fst snd] in H, K. unfold update_phase. align H. align K.
  do 5 (apply both_same; intros ?). constructor. split; cbn [fst snd]; auto with sim.
Qed.
Lemma smooth_sim : forall o a cur cur' prev prev' t, sim false cur cur' -> sim false prev prev' ->
  both (fun x y => sim false (fst x) (fst y) /\ snd x = snd y) (mbe_applyAdaptiveSmoothing o a cur prev t) (mbe_applyAdaptiveSmoothing o a cur' prev' t).
Proof.
  intros o a cur cur' prev prev' t H K. unfold mbe_applyAdaptiveSmoothing, smoothing_rm0. align H. align K. flat.
  apply both_same. intros [r t1]. flat. align H. apply both_same. intros V. apply both_same. intros Am. apply both_same. intros Tm.
  destruct (fgt Am (f_of_Z Tm) && fgt Am fzero); [apply both_same; intros M|]; constructor; cbn [fst snd]; split; auto with sim.
Qed.
Lemma enhance_sim : forall o a cur cur' t, sim false cur cur' -> both (fun x y => sim false (fst x) (fst y) /\ snd x = snd y) (mbe_spectralAmpEnhance o a cur t) (mbe_spectralAmpEnhance o a cur' t).
Proof.
  intros o a cur cur' t H. unfold mbe_spectralAmpEnhance. align H. apply both_same. intros tab. apply both_same. intros [rm0 rm1]. apply both_same. intros Ml. apply both_same. intros s. apply both_same. intros Ml2.
  constructor. cbn [fst snd]. auto with sim.
Qed.
Definition out4 (x y : list f32 * parms * parms * tls) : Prop := let '(b, m, n, t) := x in let '(b', m', n', t') := y in b = b' /\ sim false m m' /\ sim false n n' /\ t = t'.
Lemma harmonic_sim : forall o cw0 pw0 cur cur' prev prev', sim false cur cur' -> sim false prev prev' -> forall l b, add_harmonic o cw0 pw0 cur prev l b = add_harmonic o cw0 pw0 cur' prev' l b.
Proof. intros o cw0 pw0 cur cur' prev prev' H K l b. unfold add_harmonic. align H. align K. reflexivity. Qed.
Lemma unvoiced_sim : forall o b cur cur' prev prev' noise, sim false cur cur' -> sim false prev prev' ->
  mbe_synthesizeUnvoicedFFTWithNoise o b cur prev noise = mbe_synthesizeUnvoicedFFTWithNoise o b cur' prev' noise.
Proof. intros o b cur cur' prev prev' noise H K. unfold mbe_synthesizeUnvoicedFFTWithNoise. align H. align K. reflexivity. Qed.
Lemma muted_sim : forall m n, sim false m n -> speech_muted m = speech_muted n.
Proof. intros m n H. unfold speech_muted, mbe_isMaxFrameRepeat, mbe_requiresMuting. align H. destruct (sim_repeats _ _ H) as [_ ->]. reflexivity. Qed.
Lemma speech_sim : forall o b a cur cur' prev prev' uv t, sim false cur cur' -> sim false prev prev' -> both out4 (mbe_synthesizeSpeechf o b a cur prev uv t) (mbe_synthesizeSpeechf o b a cur' prev' uv t).
Proof.
  intros o b a cur cur' prev prev' uv t H K. unfold mbe_synthesizeSpeechf. eapply both_bind; [apply smooth_sim; eassumption|]. clear cur cur' H t. intros [cur t] [cur' t'] [H E]. cbn [fst snd] in H, E. subst t'.
  rewrite <- (muted_sim _ _ H). destruct (speech_muted cur).
  { apply both_same. intros [b1 t1]. constructor. cbn. auto. }
  align H. align K. apply both_same. intros [[[noise seed] ov] t1].
  assert (H1 : sim false (set_noiseOverlap ov (set_noiseSeed seed cur)) (set_noiseOverlap ov (set_noiseSeed seed cur'))) by auto with sim.
  change (p_L cur) with (p_L (set_noiseOverlap ov (set_noiseSeed seed cur))). change (p_w0 cur) with (p_w0 (set_noiseOverlap ov (set_noiseSeed seed cur))). change (p_Vl cur) with (p_Vl (set_noiseOverlap ov (set_noiseSeed seed cur))).
  clear H. revert H1. generalize (set_noiseOverlap ov (set_noiseSeed seed cur)) as c. generalize (set_noiseOverlap ov (set_noiseSeed seed cur')) as c'. intros c' c H. cbv zeta.
  align H. apply both_same. intros u. apply both_same. intros b1.
  eapply (both_bind (fun x y => sim2 false false (fst x) (fst y) /\ snd x = snd y)).
  { destruct (p_L prev <? p_L c).
    - eapply both_bind; [apply extend_sim, K|]. intros p p' P. constructor. split; [split; [exact H|exact P]|reflexivity].
    - eapply both_bind; [apply extend_sim, H|]. intros p p' P. constructor. split; [split; [exact P|exact K]|reflexivity]. }
  intros [[c1 p1] ml] [[c2 p2] ml'] [S E]. cbn [fst snd] in S, E. subst ml'.
  eapply both_bind; [apply both_for; [intros; apply phase_sim; assumption|exact S]|]. clear S. intros [c3 p3] [c4 p4] [S1 S2]. cbn [fst snd] in S1, S2.
  replace (for_up 1 (ml + 1) (add_harmonic o (p_w0 c) (p_w0 prev) c4 p4) b1) with (for_up 1 (ml + 1) (add_harmonic o (p_w0 c) (p_w0 prev) c3 p3) b1).
  2:{ apply for_up_ext. intros k x _. apply harmonic_sim; assumption. }
  apply both_same. intros b2. rewrite <- (unvoiced_sim o b2 c3 c4 p3 p4 noise S1 S2).
  eapply (both_bind (fun x y => fst x = fst y /\ sim false (snd x) (snd y))).
  { destruct (o_plan o); [|constructor; auto]. apply both_same. intros [b3 uw]. constructor. cbn [fst snd]. split; [reflexivity|]. auto with sim. }
  intros [b3 c5] [b4 c6] [E S3]. cbn [fst snd] in E, S3. subst b4. apply both_same. intros b5. constructor. cbn. auto.
Qed.
Definition out3 (x y : list f32 * dstate * tls) : Prop := let '(b, (c, p, e), t) := x in let '(b', (c', p', e'), t') := y in b = b' /\ sim false c c' /\ sim false p p' /\ sim false e e' /\ t = t'.
Lemma speak_sim : forall o a b cur cur' enh enh' uv t, sim false cur cur' -> sim false enh enh' -> both out3 (ambe_speak o a b cur enh uv t) (ambe_speak o a b cur' enh' uv t).
Proof.
  intros o a b cur cur' enh enh' uv t H K. unfold ambe_speak, mbe_moveMbeParms. cbv zeta. eapply both_bind; [apply enhance_sim, H|]. intros [c t1] [c' t2] [S E]. cbn [fst snd] in S, E. subst t2.
  eapply both_bind; [apply speech_sim; eassumption|]. intros [[[b1 c1] e1] t2] [[[b2 c2] e2] t3] (-> & S1 & S2 & ->). constructor. cbn. auto.
Qed.
Lemma extend_prev_sim : forall k L m n, sim k m n -> both (sim k) (ambe_extend_prev L m) (ambe_extend_prev L n).
Proof.
  intros k L m n H. unfold ambe_extend_prev. eapply (both_bind (sim k)).
  - unfold imbe_extend_prev. align H. destruct (p_L m <? L); [|constructor; exact H]. apply both_for; [|exact H]. intros l x y S. align S.
    do 4 (apply both_same; intros ?). constructor. auto with sim.
  - intros x y S. align S. do 4 (apply both_same; intros ?). constructor. auto with sim.
Qed.
Lemma predict_sim : forall k j o u L prev prev' Tl cur cur', sim k prev prev' -> sim j cur cur' -> both (sim j) (ambe_predict o u L prev Tl cur) (ambe_predict o u L prev' Tl cur').
Proof.
  intros k j o u L prev prev' Tl cur cur' H K. unfold ambe_predict, ambe_sum43, ambe_log2. align H. align K. apply both_same. intros s. apply both_same. intros g.
  apply both_for; [|exact K]. intros l x y S. align S. do 4 (apply both_same; intros ?). constructor. auto with sim.
Qed.
Lemma amplitudes_sim : forall k j o T u L b2 b3 b4 b5 b6 b7 b8 cur cur' prev prev', sim j cur cur' -> sim k prev prev' ->
  both (sim2 j k) (ambe_amplitudes o T u L b2 b3 b4 b5 b6 b7 b8 cur prev) (ambe_amplitudes o T u L b2 b3 b4 b5 b6 b7 b8 cur' prev').
Proof.
  intros k j o T u L b2 b3 b4 b5 b6 b7 b8 cur cur' prev prev' H K. unfold ambe_amplitudes. align K. do 13 (apply both_same; intros ?).
  eapply both_bind; [apply extend_prev_sim, K|]. intros p p' P. eapply both_bind; [eapply predict_sim; [exact P|]|]. 2:{ intros c c' C. constructor. split; cbn [fst snd]; eassumption. } auto with sim.
Qed.
Lemma pitch_sim : forall k d b0 m n, sim k m n -> both (fun x y => sim k (fst x) (fst y) /\ snd x = snd y) (ambe2450_pitch d b0 m) (ambe2450_pitch d b0 n).
Proof.
  intros k d b0 m n H. unfold ambe2450_pitch. align H.
  eapply (both_bind (fun x y => sim k (fst (fst x)) (fst (fst y)) /\ snd (fst x) = snd (fst y) /\ snd x = snd y)).
  { destruct ((b0 =? 124) || (b0 =? 125)); [apply both_same; intros V|do 3 (apply both_same; intros ?)]; constructor; cbn [fst snd]; auto with sim. }
  intros [[c f] L] [[c' f'] L'] (S & E1 & E2). cbn [fst snd] in S, E1, E2. subst f' L'. align S. apply both_same. intros b1. apply both_same. intros V. constructor. cbn [fst snd]. auto with sim.
Qed.
Definition out_dec (j k : bool) (x y : Z * parms * parms) : Prop := let '(b, c, p) := x in let '(b', c', p') := y in b = b' /\ sim j c c' /\ sim k p p'.
Lemma decode_sim : forall o d e cur cur' prev prev', sim true cur cur' -> sim false prev prev' ->
  both (out_dec true false) (mbe_decodeAmbe2450ParmsInternal o d cur prev e) (mbe_decodeAmbe2450ParmsInternal o d cur' prev' e).
Proof.
  intros o d e cur cur' prev prev' H K. unfold mbe_decodeAmbe2450ParmsInternal. destruct (sim_repeats _ _ K) as [-> _].
  assert (S : sim true (set_repeat (p_repeat prev') cur) (set_repeat (p_repeat prev') cur')) by auto with sim. revert S. generalize (set_repeat (p_repeat prev') cur) as c, (set_repeat (p_repeat prev') cur') as c'. clear H. intros c c' H. cbv zeta.
  apply both_same. intros tv. apply both_same. intros b0. destruct (tv && (e <? 6)); [constructor; cbn; auto|]. destruct ((120 <=? b0) && (b0 <=? 123)); [constructor; cbn; auto|]. destruct ((b0 =? 126) || (b0 =? 127)); [constructor; cbn; auto|].
  eapply both_bind; [apply pitch_sim, H|]. intros [c1 u] [c2 u'] [S E]. cbn [fst snd] in S, E. subst u'. align S. do 7 (apply both_same; intros ?).
  eapply both_bind; [apply amplitudes_sim; eassumption|]. intros [c3 p3] [c4 p4] [S1 S2]. constructor. cbn. auto.
Qed.
(* alike also but for what every frame sets first *)
Definition before (m n : parms) : Prop := sim true (with_errors 0 fzero m) (with_errors 0 fzero n).
Lemma entry_sim : forall n r m m', before m m' -> sim true (with_errors n r m) (with_errors n r m').
Proof.
  intros n r m m' H. unfold before in H. pose proof (sim_fields _ _ _ H) as F. apply sim_intro. cbv [fields_same with_errors] in F |- *. cbn in F |- *. decompose [and] F. repeat split; assumption || reflexivity.
Qed.
Lemma before_of : forall k m n, sim k m n -> before m n.
Proof. intros k m n H. unfold before. pose proof (sim_fields _ _ _ H) as F. apply sim_intro. cbv [fields_same with_errors] in F |- *. cbn in F |- *. decompose [and] F. repeat split; assumption || reflexivity. Qed.
Definition sim_state (st st' : dstate) : Prop := let '(c, p, e) := st in let '(c', p', e') := st' in before c c' /\ sim false p p' /\ sim false e e'.
Definition out_call (x y : list f32 * list Z * dstate * tls) : Prop := let '(b, s, st, t) := x in let '(b', s', st', t') := y in b = b' /\ s = s' /\ sim_state st st' /\ t = t'.
