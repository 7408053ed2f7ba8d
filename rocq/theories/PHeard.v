(* What is decoded and reported does not depend on how the sound is made: parameter decoding. *)
From Coq Require Import ZArith List Bool Lia.
From Verif Require Import Res F32 MFrame MParms MAdaptive MUnvoiced MSynth MImbe MAmbe SpecEcc SpecFrame SpecState SpecAdaptive SpecGen SpecOut SpecWola SpecImbe SpecAmbe SpecEnh SpecMachine SpecTone SpecAmbeMachine
  PBase PRun PLoop PState PFloat PFloat2 PArr PAdapt PGen POut PWola PSpeech PConv PImbe PAmbeDec PAmbeDec2 PEnh PNyq PMachine PStream PTone PAmbeMachine PFrameAmbe PFrame7100 SpecHeard PAmbeStream.
Import ListNotations.
Local Open Scope Z_scope.

Lemma imbe_oracle : forall o o' d c p, decode_alike o o' -> mbe_decodeImbe4400Parms o d c p = mbe_decodeImbe4400Parms o' d c p.
Proof. intros [] [] d c p (E1 & E2 & E3). cbn in E1, E2, E3. subst. reflexivity. Qed.
Lemma ambe2450_oracle : forall o o' d c p n, decode_alike o o' -> mbe_decodeAmbe2450ParmsInternal o d c p n = mbe_decodeAmbe2450ParmsInternal o' d c p n.
Proof. intros [] [] d c p n (E1 & E2 & E3). cbn in E1, E2, E3. subst. reflexivity. Qed.
Lemma ambe2400_oracle : forall o o' d c p, decode_alike o o' -> mbe_decodeAmbe2400Parms o d c p = mbe_decodeAmbe2400Parms o' d c p.
Proof. intros [] [] d c p (E1 & E2 & E3). cbn in E1, E2, E3. subst. reflexivity. Qed.

(* arrays that agree on the cells 1 .. k-1 *)
Definition from1 {A} (k : Z) (a b : list A) : Prop := length a = 57%nat /\ length b = 57%nat /\ forall i, 1 <= i < k -> rd a i = rd b i.
Lemma from1_wr : forall {A} k j (a b : list A) v, from1 k a b -> 0 <= j -> j <= k -> (k <= j + 1)%Z \/ j < k -> res_rel (from1 (Z.max k (j + 1))) (wr a j v) (wr b j v).
Proof.
  intros A k j a b v (La & Lb & H) Hj Hk _. destruct (Z_lt_ge_dec j 57) as [Hn|Hn].
  - assert (Wa : wr a j v = Ok (set_nth (Z.to_nat j) v a)) by (apply wr_ok; lia).
    assert (Wb : wr b j v = Ok (set_nth (Z.to_nat j) v b)) by (apply wr_ok; lia).
    rewrite Wa, Wb. cbn [res_rel]. split; [now rewrite set_nth_length|]. split; [now rewrite set_nth_length|]. intros i Hi.
    destruct (Z.eq_dec i j) as [->|N].
    + rewrite (rd_wr_same _ _ _ _ Wa), (rd_wr_same _ _ _ _ Wb). reflexivity.
    + rewrite (rd_wr_other _ _ i _ _ Wa), (rd_wr_other _ _ i _ _ Wb) by lia. apply H. lia.
  - unfold wr. destruct (j <? 0); [reflexivity|].
    destruct (Z.to_nat j <? length a)%nat eqn:E; [apply Nat.ltb_lt in E; lia|].
    destruct (Z.to_nat j <? length b)%nat eqn:F; [apply Nat.ltb_lt in F; lia|]. reflexivity.
Qed.
Lemma from1_next : forall {A} k (a b : list A) v, from1 k a b -> 1 <= k -> res_rel (from1 (k + 1)) (wr a k v) (wr b k v).
Proof. intros A k a b v H Hk. pose proof (from1_wr k k a b v H ltac:(lia) ltac:(lia) ltac:(lia)) as Q. replace (Z.max k (k + 1)) with (k + 1) in Q by lia. exact Q. Qed.
Lemma from1_start : forall {A} (a b : list A), length a = 57%nat -> length b = 57%nat -> from1 1 a b.
Proof. intros A a b La Lb. split; [exact La|]. split; [exact Lb|]. intros i Hi. lia. Qed.
Lemma from1_le : forall {A} k j (a b : list A), j <= k -> from1 k a b -> from1 j a b.
Proof. intros A k j a b H (La & Lb & Q). split; [exact La|]. split; [exact Lb|]. intros i Hi. apply Q. lia. Qed.
Lemma same_bind : forall {A C D} (Q : C -> D -> Prop) (x : res A) f g, (forall a, res_rel Q (f a) (g a)) -> res_rel Q (bind x f) (bind x g).
Proof. intros A C D Q [a|w] f g H; cbn; auto. Qed.

(* ---- voicing ---- *)
Lemma vl_rel : forall bb L K V V', length V = 57%nat -> length V' = 57%nat -> 0 <= L -> res_rel (from1 (L + 1)) (imbe_vl bb L K V) (imbe_vl bb L K V').
Proof.
  intros bb L K V V' LV LV' HL. unfold imbe_vl. apply (bind_rel (fun x y => from1 (L + 1) (fst (fst x)) (fst (fst y)) /\ snd (fst x) = snd (fst y) /\ snd x = snd y)).
  - apply (for_up_rel (fun k x y => from1 k (fst (fst x)) (fst (fst y)) /\ snd (fst x) = snd (fst y) /\ snd x = snd y)); [lia| |].
    + intros k [[v j] q] [[v' j'] q'] Hk (F & E1 & E2). cbn [fst snd] in *. subst. apply same_bind. intros c.
      apply (bind_rel (from1 (k + 1))); [apply from1_next; [exact F|lia]|]. intros a b G. destruct (j' =? 3); cbn [res_rel fst snd]; auto.
    + cbn [fst snd]. split; [now apply from1_start|]. auto.
  - intros [[v j] q] [[v' j'] q'] (F & _). exact F.
Qed.
Lemma clear_rel : forall L V V', length V = 57%nat -> length V' = 57%nat -> 0 <= L -> res_rel (from1 (L + 1)) (clear_vl L V) (clear_vl L V').
Proof. intros L V V' LV LV' HL. unfold clear_vl. apply (for_up_rel from1); [lia| |now apply from1_start]. intros k a b Hk F. apply from1_next; [exact F|lia]. Qed.

(* ---- the history ---- *)
Definition lengths (m : parms) : Prop := length (p_Vl m) = 57%nat /\ length (p_Ml m) = 57%nat.
Lemma wf_lengths : forall m, wf_parms m -> lengths m. Proof. intros m (A & B & _). split; assumption. Qed.
(* alike, with amplitudes that agree below k and voicing that agrees below j *)
Definition alike (j k : Z) (m m' : parms) : Prop := heard m m' /\ from1 j (p_Vl m) (p_Vl m') /\ from1 k (p_Ml m) (p_Ml m').
Lemma alike_start : forall m m', heard m m' -> lengths m -> lengths m' -> alike 1 1 m m'.
Proof. intros m m' H [A B] [C D]. split; [exact H|]. split; now apply from1_start. Qed.
Lemma alike_speech : forall m m', same_speech m m' -> lengths m -> lengths m' -> alike (p_L m + 1) (p_L m + 1) m m'.
Proof.
  intros m m' (H & HL & Q) [A B] [C D]. split; [exact H|]. split; (split; [assumption|]); (split; [assumption|]); intros i Hi; apply Q; lia.
Qed.
Lemma speech_alike : forall j k m m', alike j k m m' -> 1 <= p_L m <= 56 -> p_L m < j -> p_L m < k -> same_speech m m'.
Proof. intros j k m m' (H & (_ & _ & V) & (_ & _ & M)) HL Hj Hk. split; [exact H|]. split; [exact HL|]. intros l Hl. split; [apply V|apply M]; lia. Qed.
Ltac hfields := unfold heard in *; fields; intuition congruence.
Lemma alike_amp : forall j k k' m m' g a a', alike j k m m' -> from1 k' a a' -> alike j k' (set_Ml a (set_log2Ml g m)) (set_Ml a' (set_log2Ml g m')).
Proof. intros j k k' m m' g a a' (H & V & M) F. split; [hfields|]. split; [exact V|exact F]. Qed.
Lemma alike_log : forall j k k' m m' g a a', alike j k m m' -> from1 k' a a' -> alike j k' (set_log2Ml g (set_Ml a m)) (set_log2Ml g (set_Ml a' m')).
Proof. intros j k k' m m' g a a' (H & V & M) F. split; [hfields|]. split; [exact V|exact F]. Qed.
Lemma extend_rel : forall L m m', same_speech m m' -> lengths m -> lengths m' -> res_rel (fun q q' => alike (p_L m + 1) (Z.max (p_L m) L + 1) q q' /\ p_L q = p_L m) (imbe_extend_prev L m) (imbe_extend_prev L m').
Proof.
  intros L m m' S LM LM'. pose proof (alike_speech _ _ S LM LM') as A. destruct S as (H & HL & _). unfold imbe_extend_prev. cbv zeta.
  assert (EL : p_L m' = p_L m) by (destruct H as (_ & E & _); congruence). rewrite EL. destruct (Z.ltb_spec (p_L m) L) as [C|C].
  2:{ cbn [res_rel]. replace (Z.max (p_L m) L) with (p_L m) by lia. split; [exact A|reflexivity]. }
  replace (Z.max (p_L m) L + 1) with (L + 1) by lia.
  apply (for_up_rel (fun k q q' => alike (p_L m + 1) k q q' /\ p_L q = p_L m)); [lia| |split; [exact A|reflexivity]].
  intros k q q' Hk (Q & EQ). pose proof Q as (HH & _ & (L1 & L2 & M)). rewrite (M (p_L m)) by lia. apply same_bind. intros v.
  apply (bind_rel (from1 (k + 1))); [apply from1_next; [exact (proj2 (proj2 Q))|lia]|]. intros x y F.
  assert (EG : p_log2Ml q = p_log2Ml q') by apply HH. rewrite <- EG. apply same_bind. intros g. apply same_bind. intros lg. cbn [res_rel].
  split; [|fields; exact EQ]. now apply (alike_log _ k).
Qed.
Lemma extend0_rel : forall L m m', 1 <= L -> same_speech m m' -> lengths m -> lengths m' -> res_rel (fun q q' => alike (p_L m + 1) (Z.max (p_L m) L + 1) q q' /\ p_L q = p_L m) (ambe_extend_prev L m) (ambe_extend_prev L m').
Proof.
  intros L m m' HL1 S LM LM'. pose proof S as (_ & HL & _). unfold ambe_extend_prev.
  eapply bind_rel; [apply extend_rel; eassumption|]. cbv beta. intros q q' (Q & EQ). pose proof Q as (HH & _ & F). assert (EG : p_log2Ml q = p_log2Ml q') by apply HH.
  rewrite <- EG. apply same_bind. intros g. apply same_bind. intros lg. rewrite (proj2 (proj2 F) 1) by lia. apply same_bind. intros x.
  eapply bind_rel; [apply from1_wr; [exact F|lia|lia|lia]|]. cbv beta. intros a b G. replace (Z.max (Z.max (p_L m) L + 1) (0 + 1)) with (Z.max (p_L m) L + 1) in G by lia. cbn [res_rel].
  split; [|fields; exact EQ]. now apply (alike_amp _ (Z.max (p_L m) L + 1)).
Qed.
Lemma imbe_predict_rel : forall o L j p p' tl c c', heard p p' -> alike j 1 c c' -> 0 <= L -> res_rel (fun q q' => alike j (L + 1) q q' /\ p_L q = p_L c) (imbe_predict o L p tl c) (imbe_predict o L p' tl c').
Proof.
  intros o L j p p' tl c c' HP HC HL. unfold imbe_predict. cbv zeta. assert (EL : p_L p = p_L p') by apply HP. assert (EG : p_log2Ml p = p_log2Ml p') by apply HP.
  unfold imbe_sum77, imbe_log2. rewrite EL, EG. apply same_bind. intros s. apply (for_up_rel (fun k q q' => alike j k q q' /\ p_L q = p_L c)); [lia| |split; [exact HC|reflexivity]].
  intros k q q' Hk (Q & EQ). pose proof Q as (HH & _ & F). apply same_bind. intros g. assert (E : p_log2Ml q = p_log2Ml q') by apply HH. rewrite <- E. apply same_bind. intros lg.
  eapply bind_rel; [apply from1_next; [exact F|lia]|]. cbv beta. intros x y G. cbn [res_rel]. split; [now apply (alike_amp _ k)|fields; exact EQ].
Qed.
Lemma ambe_predict_rel : forall o u L j p p' tl c c', heard p p' -> alike j 1 c c' -> 0 <= L < j -> res_rel (fun q q' => alike j (L + 1) q q' /\ p_L q = p_L c) (ambe_predict o u L p tl c) (ambe_predict o u L p' tl c').
Proof.
  intros o u L j p p' tl c c' HP HC HL. unfold ambe_predict. assert (EL : p_L p = p_L p') by apply HP. assert (EG : p_log2Ml p = p_log2Ml p') by apply HP.
  assert (EY : p_gamma c = p_gamma c') by apply HC.
  unfold ambe_sum43, ambe_log2. rewrite EL, EG, EY. apply same_bind. intros s. apply same_bind. intros bg. apply (for_up_rel (fun k q q' => alike j k q q' /\ p_L q = p_L c)); [lia| |split; [exact HC|reflexivity]].
  intros k q q' Hk (Q & EQ). pose proof Q as (HH & FV & F). apply same_bind. intros g. assert (E : p_log2Ml q = p_log2Ml q') by apply HH. rewrite <- E. apply same_bind. intros lg.
  rewrite (proj2 (proj2 FV) k) by lia. apply same_bind. intros v.
  eapply bind_rel; [apply from1_next; [exact F|lia]|]. cbv beta. intros x y G. cbn [res_rel]. split; [now apply (alike_amp _ k)|fields; exact EQ].
Qed.

(* ---- the decoders ---- *)
(* the results: the same answer, and the same speech if the frame was accepted *)
Definition decoded (x y : Z * parms * parms) : Prop :=
  fst (fst x) = fst (fst y) /\ heard (snd (fst x)) (snd (fst y)) /\ same_speech (snd x) (snd y) /\ (fst (fst x) = 0 -> same_speech (snd (fst x)) (snd (fst y))).
Lemma imbe_decode_rel : forall o d c c' p p', heard c c' -> lengths c -> lengths c' -> same_speech p p' -> lengths p -> lengths p' ->
  res_rel decoded (mbe_decodeImbe4400Parms o d c p) (mbe_decodeImbe4400Parms o d c' p').
Proof.
  intros o d c c' p p' HC LC LC' SP LP LP'. unfold mbe_decodeImbe4400Parms. cbv zeta. pose proof SP as (HP & HL & _). assert (ER : p_repeat p' = p_repeat p) by (unfold heard in HP; intuition congruence). rewrite ER.
  apply same_bind. intros b0. destruct (207 <? b0).
  { cbn [res_rel]. split; [reflexivity|]. cbn [fst snd]. split; [hfields|]. split; [exact SP|discriminate]. }
  fields. apply same_bind. intros L. destruct ((56 <? L) || (L <? 9)) eqn:EL.
  { cbn [res_rel]. split; [reflexivity|]. cbn [fst snd]. split; [hfields|]. split; [exact SP|discriminate]. }
  apply orb_false_iff in EL as [E1 E2]. apply same_bind. intros K. apply same_bind. intros bb.
  eapply bind_rel; [apply vl_rel; [apply LC|apply LC'|lia]|]. cbv beta. intros v v' FV. apply same_bind. intros Gm. apply same_bind. intros Ri. apply same_bind. intros Ck. apply same_bind. intros tl.
  eapply bind_rel; [apply extend_rel; eassumption|]. cbv beta. intros q q' (Q & EQ).
  eapply bind_rel; [apply (imbe_predict_rel o L (L + 1)); [exact (proj1 Q)| |lia]|].
  - split; [hfields|]. split; [exact FV|]. apply from1_start; [apply LC|apply LC'].
  - cbv beta. intros x y (G & EX). cbn [res_rel]. unfold decoded. cbn [fst snd]. split; [reflexivity|]. split; [apply G|].
    assert (SQ : same_speech q q') by (apply (speech_alike _ _ _ _ Q); lia). split; [exact SQ|]. intros _. assert (EX' : p_L x = L) by exact EX. apply (speech_alike _ _ _ _ G); rewrite EX'; lia.
Qed.
(* AMBE: the amplitudes *)
Lemma amplitudes_rel : forall o T u L b2 b3 b4 b5 b6 b7 b8 c c' p p', 1 <= L <= 56 -> p_L c = L -> alike (L + 1) 1 c c' -> same_speech p p' -> lengths p -> lengths p' ->
  res_rel (fun x y => same_speech (fst x) (fst y) /\ same_speech (snd x) (snd y)) (ambe_amplitudes o T u L b2 b3 b4 b5 b6 b7 b8 c p) (ambe_amplitudes o T u L b2 b3 b4 b5 b6 b7 b8 c' p').
Proof.
  intros o T u L b2 b3 b4 b5 b6 b7 b8 c c' p p' HL EC (HC & FV & FM) SP LP LP'. unfold ambe_amplitudes. pose proof SP as (HP & HPL & _).
  apply same_bind. intros dg. cbv zeta. do 12 (apply same_bind; intros ?).
  eapply bind_rel; [apply extend0_rel; [lia|eassumption..]|]. cbv beta. intros q q' (Q & EQ).
  eapply bind_rel; [apply (ambe_predict_rel o u L (L + 1)); [exact (proj1 Q)| |lia]|].
  - split; [assert (EY : p_gamma p = p_gamma p') by apply HP; rewrite EY; hfields|]. split; assumption.
  - cbv beta. intros x y (G & EX). cbn [res_rel fst snd]. assert (EX' : p_L x = L) by (rewrite EX; exact EC). split; [apply (speech_alike _ _ _ _ G); rewrite EX'; lia|apply (speech_alike _ _ _ _ Q); lia].
Qed.
Lemma pitch2450_scale : forall d b c c' u, ambe2450_pitch d b c = Ok (c', u) -> u = unvoiced_scale (p_w0 c').
Proof.
  intros d b c c' u H. unfold ambe2450_pitch in H. cbv zeta in H. apply bind_inv in H as ([[x f] L] & _ & H). apply bind_inv in H as (b1 & _ & H). apply bind_inv in H as (V & _ & H).
  injection H as <- <-. reflexivity.
Qed.
Lemma pitch2400_scale : forall o d b c c' u, ambe2400_pitch o d b c = Ok (c', u) -> u = unvoiced_scale (p_w0 c').
Proof.
  intros o d b c c' u H. unfold ambe2400_pitch in H. cbv zeta in H. apply bind_inv in H as (f & _ & H). apply bind_inv in H as (L & _ & H). apply bind_inv in H as (b1 & _ & H). apply bind_inv in H as (V & _ & H).
  injection H as <- <-. reflexivity.
Qed.
Lemma pitched : forall L w v r c c' V V', heard c c' -> lengths c -> lengths c' -> length V = 57%nat -> length V' = 57%nat -> 
  (forall l, 1 <= l <= L -> rd V l = Ok (v l)) -> (forall l, 1 <= l <= L -> rd V' l = Ok (v l)) ->
  alike (L + 1) 1 (set_Vl V (set_L L (set_w0 w (set_repeat r c)))) (set_Vl V' (set_L L (set_w0 w (set_repeat r c')))).
Proof.
  intros L w v r c c' V V' H [_ A] [_ B] LV LV' HV HV'. split; [hfields|]. split; [|apply from1_start; assumption]. fields. split; [exact LV|]. split; [exact LV'|].
  intros i Hi. rewrite HV, HV' by lia. reflexivity.
Qed.
Lemma voice2450_rel : forall o d c c' p p' e, is_bits 49 d -> heard c c' -> lengths c -> lengths c' -> same_speech p p' -> lengths p -> lengths p' -> ~ (tone2450 d /\ e < 6) -> PAmbeDec.voice2450 (pitch2450 d) ->
  res_rel decoded (mbe_decodeAmbe2450ParmsInternal o d c p e) (mbe_decodeAmbe2450ParmsInternal o d c' p' e).
Proof.
  intros o d c c' p p' e Hd HC LC LC' SP LP LP' NT HV. unfold mbe_decodeAmbe2450ParmsInternal. pose proof SP as (HP & HL & _). assert (ER : p_repeat p' = p_repeat p) by (unfold heard in HP; intuition congruence). rewrite ER.
  destruct (tone_verified_ok d Hd) as (tv & -> & HT). cbn [bind]. cbv zeta.
  rewrite (bits_msb_ok 49) by (exact Hd || (cbn; lia) || positions). cbn [bind]. fold (pitch2450 d).
  destruct (tv && (e <? 6)) eqn:ET.
  { exfalso. apply NT. apply andb_true_iff in ET as [A B]. split; [apply HT, A|lia]. }
  destruct ((120 <=? pitch2450 d) && (pitch2450 d <=? 123)) eqn:E1; [unfold PAmbeDec.voice2450 in HV; lia|].
  destruct ((pitch2450 d =? 126) || (pitch2450 d =? 127)) eqn:E2; [unfold PAmbeDec.voice2450 in HV; lia|].
  destruct (ambe2450_pitch_ok d (set_repeat (p_repeat p) c) Hd (proj1 LC) HV) as (V & u & L1 & V1 & _ & EP). 
  destruct (ambe2450_pitch_ok d (set_repeat (p_repeat p) c') Hd (proj1 LC') HV) as (V' & u' & L1' & V1' & _ & EP').
  pose proof (pitch2450_scale _ _ _ _ _ EP) as U. pose proof (pitch2450_scale _ _ _ _ _ EP') as U'. rewrite EP, EP'. cbn [bind].
  assert (EU : u' = u) by (rewrite U, U'; reflexivity). rewrite EU.
  do 7 (apply same_bind; intros ?). fields. pose proof (harmonics2450_range _ HV) as HR.
  eapply bind_rel; [apply amplitudes_rel; [lia|reflexivity| |exact SP|exact LP|exact LP']|].
  - apply (pitched _ _ (voicing2450 d)); assumption.
  - cbv beta. intros [x q] [y q'] [G Q]. cbn [res_rel]. unfold decoded. cbn [fst snd] in *. split; [reflexivity|]. split; [apply G|]. split; [exact Q|]. intros _. exact G.
Qed.
Lemma voice2400_rel : forall o d c c' p p', is_bits 49 d -> heard c c' -> lengths c -> lengths c' -> same_speech p p' -> lengths p -> lengths p' -> pitch2400 d < 126 -> exp2_close o (exponent2400 (pitch2400 d)) ->
  res_rel decoded (mbe_decodeAmbe2400Parms o d c p) (mbe_decodeAmbe2400Parms o d c' p').
Proof.
  intros o d c c' p p' Hd HC LC LC' SP LP LP' Hb HX. unfold mbe_decodeAmbe2400Parms. pose proof SP as (HP & HL & _). assert (ER : p_repeat p' = p_repeat p) by (unfold heard in HP; intuition congruence). rewrite ER.
  cbv zeta. pose proof (pitch2400_range d Hd) as R0.
  rewrite (bits_msb_ok 49) by (exact Hd || (cbn; lia) || positions). cbn [bind]. fold (pitch2400 d). rewrite land126 by exact R0.
  destruct (Z.leb_spec 126 (pitch2400 d)); [lia|].
  destruct (ambe2400_pitch_ok o d (set_repeat (p_repeat p) c) Hd (proj1 LC) Hb HX) as (V & u & L1 & V1 & _ & EP). 
  destruct (ambe2400_pitch_ok o d (set_repeat (p_repeat p) c') Hd (proj1 LC') Hb HX) as (V' & u' & L1' & V1' & _ & EP').
  pose proof (pitch2400_scale _ _ _ _ _ _ EP) as U. pose proof (pitch2400_scale _ _ _ _ _ _ EP') as U'. rewrite EP, EP'. cbn [bind].
  assert (EU : u' = u) by (rewrite U, U'; reflexivity). rewrite EU.
  do 7 (apply same_bind; intros ?). fields. pose proof (harmonics2400_range _ Hd Hb) as HR.
  eapply bind_rel; [apply amplitudes_rel; [lia|reflexivity| |exact SP|exact LP|exact LP']|].
  - apply (pitched _ _ (voicing2400 o d)); assumption.
  - cbv beta. intros [x q] [y q'] [G Q]. cbn [res_rel]. unfold decoded. cbn [fst snd] in *. split; [reflexivity|]. split; [apply G|]. split; [exact Q|]. intros _. exact G.
Qed.

(* ---- one call ---- *)
Lemma speech_heard : forall m k, but_speech m k -> heard m k.
Proof. intros m k H. unfold but_speech in H. rewrite H. unfold heard. fields. auto 20. Qed.
Lemma heard_sym : forall m k, heard m k -> heard k m. Proof. unfold heard. intuition congruence. Qed.
Lemma heard_trans : forall m k n, heard m k -> heard k n -> heard m n. Proof. unfold heard. intuition congruence. Qed.
Lemma spoken_heard : forall m m' k k', same_speech m m' -> but_speech m k -> but_speech m' k' -> heard k k'.
Proof. intros m m' k k' (H & _) B B'. apply (heard_trans _ m); [apply heard_sym, speech_heard, B|]. apply (heard_trans _ m'); [exact H|apply speech_heard, B']. Qed.
Lemma reset_speech : forall m m', heard m m' -> same_speech (headroom m) (headroom m').
Proof. intros m m' H. unfold headroom. split; [hfields|]. fields. split; [lia|]. intros l Hl. split; reflexivity. Qed.
Lemma speech_counts : forall r k m m', same_speech m m' -> same_speech (set_repeatCount k (set_repeat r m)) (set_repeatCount k (set_repeat r m')).
Proof. intros r k m m' (H & L & Q). split; [hfields|]. fields. split; [exact L|exact Q]. Qed.
Lemma imbe_do_heard : forall o o' a a' c c' st st' t t' b b' s s' u u' v v', decode_alike o o' -> same_call c c' -> call_ok c -> call_ok c' -> sane_state st -> sane_state st' -> thread_ok t -> thread_ok t' ->
  same_history st st' -> imbe_do o a c st t = Ok (b, s, u, v) -> imbe_do o' a' c' st' t' = Ok (b', s', u', v') ->
  s = s' /\ same_history u u' /\ sane_state u /\ sane_state u' /\ thread_ok v /\ thread_ok v'.
Proof.
  intros o o' a a' c c' [[cur prev] enh] [[cur' prev'] enh'] t t' b b' s s' u u' v v' DA (E1 & E2 & E3 & E4) (Hd & Hn & LB) (Hd' & Hn' & LB') SS SS' TH TH' (HC & SP) H H'. cbn [cur_of prev_of] in *.
  unfold imbe_do in *. rewrite <- E1, <- E2, <- E3, <- E4 in *.
  destruct (imbe_process_inv _ _ _ _ _ _ _ _ _ _ _ _ _ _ _ _ Hd Hn SS LB H) as (bad & c1 & p1 & m & k & HD & EM & SM & -> & TK & BK & ES & _).
  destruct (imbe_process_inv _ _ _ _ _ _ _ _ _ _ _ _ _ _ _ _ Hd Hn SS' LB' H') as (bad' & c1' & p1' & m' & k' & HD' & EM' & SM' & -> & TK' & BK' & ES' & _).
  destruct (TK TH) as [SK TV]. destruct (TK' TH') as [SK' TV']. destruct SS as (SC & SPR & SE). destruct SS' as (SC' & SPR' & SE').
  pose proof (proj1 SP) as HP. assert (ER : p_errorRate prev' = p_errorRate prev) by (unfold heard in HP; intuition congruence).
  assert (R1 : p_repeatCount prev' = p_repeatCount prev) by (unfold heard in HP; intuition congruence). assert (R2 : p_repeat prev' = p_repeat prev) by (unfold heard in HP; intuition congruence).
  unfold picked in EM, EM'. rewrite ER, R1 in *. rewrite R2 in EM'. set (need := imbe_needs _ _ _ _) in *.
  assert (HE : heard (imbe_entry (ic_errors c) (ic_c0_known c) cur prev) (imbe_entry (ic_errors c) (ic_c0_known c) cur' prev')).
  { unfold imbe_entry. rewrite ER. destruct (ic_c0_known c); hfields. }
  assert (LL : forall x y, sane x -> lengths (imbe_entry (ic_errors c) (ic_c0_known c) x y)) by (intros x y (W & _); unfold imbe_entry; destruct (ic_c0_known c); exact (wf_lengths _ W)).
  pose proof (imbe_decode_rel o' (ic_bits c) _ _ _ _ HE (LL _ _ SC) (LL _ _ SC') SP (wf_lengths _ (proj1 SPR)) (wf_lengths _ (proj1 SPR'))) as R.
  rewrite (imbe_oracle _ _ _ _ _ DA) in HD. rewrite HD, HD' in R. destruct R as (B & H1 & Q & H0). cbn [fst snd] in *.
  assert (GOAL : same_speech m m').
  { rewrite EM, EM'. clear EM EM'. destruct need eqn:EN.
    - destruct (p_repeatCount prev <? 4); [apply speech_counts, Q|apply reset_speech, H1].
    - apply speech_counts, H0. unfold need, imbe_needs in EN. apply orb_false_iff in EN as [EN _].
      assert (LV : length (p_Vl (imbe_entry (ic_errors c) (ic_c0_known c) cur prev)) = 57%nat) by apply LL, SC.
      apply (imbe_decode_inv _ _ _ _ _ _ _ Hd ltac:(lia) LV HD). }
  pose proof (proj1 GOAL) as HM. split.
  - rewrite ES, ES'. assert (X1 : p_repeatCount m' = p_repeatCount m) by (unfold heard in HM; intuition congruence). assert (X2 : p_errorRate m' = p_errorRate m) by (unfold heard in HM; intuition congruence).
    assert (X3 : p_mutingThreshold m' = p_mutingThreshold m) by (unfold heard in HM; intuition congruence). rewrite X1, X2, X3. reflexivity.
  - split; [split; [exact (spoken_heard _ _ _ _ GOAL BK BK')|exact GOAL]|]. split; [exact (conj SK (conj SM SK))|]. split; [exact (conj SK' (conj SM' SK'))|]. split; assumption.
Qed.
(* AMBE *)
Lemma speak_heard : forall o a buf m e uv t b u v, wf_parms m -> wf_parms e -> 0 <= p_L m <= 56 -> length buf = 160%nat -> ambe_speak o a buf m e uv t = Ok (b, u, v) -> exists k, u = (k, m, k) /\ but_speech m k.
Proof. intros o a buf m e uv t b u v W WE HL LB H. destruct (speak_inv _ _ _ _ _ _ _ _ _ _ W WE HL LB H) as (k & -> & B & _). eauto. Qed.
Lemma start_alike : same_history start_ambe start_ambe.
Proof. split; [unfold heard; auto 20|]. split; [unfold heard; auto 20|]. split; [vm_compute; split; discriminate|auto]. Qed.
Lemma voice_rest_heard : forall o o' a a' buf buf' need n c c' p p' e e' uv uv' t t' b b' s s' u u' v v', sane (no_repeats c) -> sane (no_repeats c') -> sane p -> sane p' -> wf_parms e -> wf_parms e' -> length buf = 160%nat -> length buf' = 160%nat ->
  same_speech c c' -> same_speech p p' -> voice_rest o a buf need n c p e uv t = Ok (b, s, u, v) -> voice_rest o' a' buf' need n c' p' e' uv' t' = Ok (b', s', u', v') -> s = s' /\ same_history u u'.
Proof.
  intros o o' a a' buf buf' need n c c' p p' e e' uv uv' t t' b b' s s' u u' v v' SC SC' SP SP' WE WE' LB LB' QC QP H H'. unfold voice_rest in *.
  assert (R : p_repeat p' = p_repeat p) by (destruct QP as (HP & _); unfold heard in HP; intuition congruence). assert (R2 : p_repeatCount p' = p_repeatCount p) by (destruct QP as (HP & _); unfold heard in HP; intuition congruence). rewrite R in H'. destruct (need && (3 <=? p_repeat p)).
  - apply bind_inv in H as ([b1 t1] & _ & H). apply bind_inv in H' as ([b2 t2] & _ & H'). apply Ok4 in H as (_ & <- & <- & _). apply Ok4 in H' as (_ & <- & <- & _). split; [reflexivity|apply start_alike].
  - apply bind_inv in H as ([[b1 u1] t1] & HS & H). apply bind_inv in H' as ([[b2 u2] t2] & HS' & H'). apply Ok4 in H as (_ & <- & <- & _). apply Ok4 in H' as (_ & <- & <- & _). split; [reflexivity|].
    set (m := if need then one_more p else no_repeats c) in *. set (m' := if need then one_more p' else no_repeats c') in *.
    assert (Q : same_speech m m') by (unfold m, m', one_more, no_repeats; rewrite R, R2; destruct need; apply speech_counts; assumption).
    assert (W : wf_parms m /\ 0 <= p_L m <= 56) by (unfold m; destruct need; [split; apply SP|split; apply SC]).
    assert (W' : wf_parms m' /\ 0 <= p_L m' <= 56) by (unfold m'; destruct need; [split; apply SP'|split; apply SC']). clearbody m m'.
    destruct (speak_heard _ _ _ _ _ _ _ _ _ _ (proj1 W) WE (proj2 W) LB HS) as (k & -> & B). destruct (speak_heard _ _ _ _ _ _ _ _ _ _ (proj1 W') WE' (proj2 W') LB' HS') as (k' & -> & B').
    split; [exact (spoken_heard _ _ _ _ Q B B')|exact Q].
Qed.
Lemma errors_heard : forall n c c' p p', heard c c' -> heard p p' -> heard (with_errors n (ambe_rate (p_errorRate p) n) c) (with_errors n (ambe_rate (p_errorRate p') n) c').
Proof. intros n c c' p p' H HP. assert (E : p_errorRate p' = p_errorRate p) by (unfold heard in HP; intuition congruence). rewrite E. unfold with_errors. hfields. Qed.
Lemma voice2450_heard : forall o o' a a' cl cl' st st' t t' b b' s s' u u' v v' c p e c' p' e', decode_alike o o' -> same_frame cl cl' -> ambe_ok cl -> ambe_ok cl' -> sane_state st -> sane_state st' -> 
  begin st = (c, p, e) -> begin st' = (c', p', e') -> heard c c' -> same_speech p p' -> kind_of cl = Voice ->
  do2450 o a cl st t = Ok (b, s, u, v) -> do2450 o' a' cl' st' t' = Ok (b', s', u', v') -> s = s' /\ same_history u u'.
Proof.
  intros o o' a a' cl cl' st st' t t' b b' s s' u u' v v' c p e c' p' e' DA (E1 & E2 & E3 & E4) (Hd & Hn & LB) (_ & _ & LB') SS SS' BG BG' HC QP K H H'. unfold do2450, kind_of in *. rewrite <- E1, <- E2, <- E3, <- E4 in *. clear E1 E2 E3 E4.
  assert (WP : wf_parms (prev_of st)) by (destruct st as [[x y] z]; destruct SS as (_ & S & _); apply S). assert (WP' : wf_parms (prev_of st')) by (destruct st' as [[x y] z]; destruct SS' as (_ & S & _); apply S).
  pose proof (sane_begin st SS) as SB. rewrite BG in SB. destruct SB as (SC & SP & SE). pose proof (sane_begin st' SS') as SB'. rewrite BG' in SB'. destruct SB' as (SC' & SP' & SE').
  destruct (kind_cases (ac_bits cl) (ac_errors cl) Hd) as [(T & N & E)|[(T & N & E)|(NT & NE & E)]]; [destruct (tone_hz (tone_id (ac_bits cl))); congruence|congruence|].
  assert (SW : sane (with_errors (ac_errors cl) (ambe_rate (p_errorRate p) (ac_errors cl)) c)) by (apply sane_with_errors; assumption).
  assert (SW' : sane (with_errors (ac_errors cl) (ambe_rate (p_errorRate p') (ac_errors cl)) c')) by (apply sane_with_errors; assumption).
  pose proof (voice2450_rel o' (ac_bits cl) _ _ p p' (ac_errors cl) Hd (errors_heard (ac_errors cl) c c' p p' HC (proj1 QP)) (wf_lengths _ (proj1 SW)) (wf_lengths _ (proj1 SW')) QP (wf_lengths _ (proj1 SP)) (wf_lengths _ (proj1 SP')) NT (not_erasure_voice _ Hd NE)) as R.
  destruct (mbe_decodeAmbe2450ParmsInternal o (ac_bits cl) (with_errors (ac_errors cl) (ambe_rate (p_errorRate p) (ac_errors cl)) c) p (ac_errors cl)) as [[[bad c1] p1]|w] eqn:HD.
  2:{ exfalso. destruct st as [[x y] z]. unfold mbe_processAmbe2450Dataf_internal in H. cbn [prev_of] in WP. rewrite ensure_ok in H by exact WP. cbn [bind] in H. rewrite BG in H. cbn [bind] in H. rewrite entry_eq, HD in H. discriminate H. }
  rewrite <- (ambe2450_oracle _ _ _ _ _ _ DA), HD in R.
  destruct (mbe_decodeAmbe2450ParmsInternal o' (ac_bits cl) (with_errors (ac_errors cl) (ambe_rate (p_errorRate p') (ac_errors cl)) c') p' (ac_errors cl)) as [[[bad' c1'] p1']|w] eqn:HD'; [|contradiction].
  destruct R as (B & _ & QP1 & Q0). cbn [fst snd] in *.
  assert (HW : pitch_in_range (w0_2450 (pitch2450 (ac_bits cl)))) by (apply w0_range; pose proof (pitch2450_range _ Hd); unfold erasure2450 in NE; lia). pose proof (harmonics2450_bits _ Hd NE) as HL.
  destruct (ambe2450_accepted _ _ _ _ _ _ _ _ Hd (proj1 (proj1 SW)) NT NE HD) as [-> AC]. destruct (ambe2450_accepted _ _ _ _ _ _ _ _ Hd (proj1 (proj1 SW')) NT NE HD') as [-> AC'].
  destruct (accepted_sane _ _ _ _ _ _ _ _ AC SW SP HL HW) as [S1 S2]. destruct (accepted_sane _ _ _ _ _ _ _ _ AC' SW' SP' HL HW) as [S1' S2'].
  assert (RR : p_repeat p1 = p_repeatCount p1 /\ 0 <= p_repeatCount p1 <= 4) by (split; apply S2). assert (RR' : p_repeat p1' = p_repeatCount p1' /\ 0 <= p_repeatCount p1' <= 4) by (split; apply S2').
  rewrite (PAmbeMachine.voice2450 _ _ _ _ _ _ _ _ _ _ _ _ _ _ _ WP BG HD (proj1 S2)) in H by lia. rewrite (PAmbeMachine.voice2450 _ _ _ _ _ _ _ _ _ _ _ _ _ _ _ WP' BG' HD' (proj1 S2')) in H' by lia.
  exact (voice_rest_heard _ _ _ _ _ _ _ _ _ _ _ _ _ _ _ _ _ _ _ _ _ _ _ _ _ _ S1 S1' S2 S2' (proj1 SE) (proj1 SE') LB LB' (Q0 eq_refl) QP1 H H').
Qed.
Lemma voice2400_heard : forall o o' a a' cl cl' st st' t t' b b' s s' u u' v v' c p e c' p' e', decode_alike o o' -> same_frame cl cl' -> ambe_ok cl -> ambe_ok cl' -> sane_state st -> sane_state st' -> good_exp2 o R2400 -> good_exp2 o' R2400 ->
  begin st = (c, p, e) -> begin st' = (c', p', e') -> heard c c' -> same_speech p p' -> voice2400 cl = true ->
  do2400 o a cl st t = Ok (b, s, u, v) -> do2400 o' a' cl' st' t' = Ok (b', s', u', v') -> s = s' /\ same_history u u'.
Proof.
  intros o o' a a' cl cl' st st' t t' b b' s s' u u' v v' c p e c' p' e' DA (E1 & E2 & E3 & E4) (Hd & Hn & LB) (_ & _ & LB') SS SS' GX GX' BG BG' HC QP K H H'. unfold do2400, voice2400 in *. rewrite <- E1, <- E2, <- E3 in *. clear E1 E2 E3 E4.
  assert (WP : wf_parms (prev_of st)) by (destruct st as [[x y] z]; destruct SS as (_ & S & _); apply S). assert (WP' : wf_parms (prev_of st')) by (destruct st' as [[x y] z]; destruct SS' as (_ & S & _); apply S).
  pose proof (sane_begin st SS) as SB. rewrite BG in SB. destruct SB as (SC & SP & SE). pose proof (sane_begin st' SS') as SB'. rewrite BG' in SB'. destruct SB' as (SC' & SP' & SE').
  assert (HB : pitch2400 (ac_bits cl) < 126) by lia. pose proof (pitch2400_range _ Hd) as HR. assert (HX : exp2_close o (exponent2400 (pitch2400 (ac_bits cl)))) by (apply GX; lia). assert (HX' : exp2_close o' (exponent2400 (pitch2400 (ac_bits cl)))) by (apply GX'; lia).
  assert (SW : sane (with_errors (ac_errors cl) (ambe_rate (p_errorRate p) (ac_errors cl)) c)) by (apply sane_with_errors; assumption).
  assert (SW' : sane (with_errors (ac_errors cl) (ambe_rate (p_errorRate p') (ac_errors cl)) c')) by (apply sane_with_errors; assumption).
  pose proof (voice2400_rel o' (ac_bits cl) _ _ p p' Hd (errors_heard (ac_errors cl) c c' p p' HC (proj1 QP)) (wf_lengths _ (proj1 SW)) (wf_lengths _ (proj1 SW')) QP (wf_lengths _ (proj1 SP)) (wf_lengths _ (proj1 SP')) HB HX') as R.
  destruct (mbe_decodeAmbe2400Parms o (ac_bits cl) (with_errors (ac_errors cl) (ambe_rate (p_errorRate p) (ac_errors cl)) c) p) as [[[bad c1] p1]|w] eqn:HD.
  2:{ exfalso. destruct st as [[x y] z]. unfold mbe_processAmbe2400Dataf in H. cbn [prev_of] in WP. rewrite ensure_ok in H by exact WP. cbn [bind] in H. rewrite BG in H. cbn [bind] in H. rewrite entry_eq, HD in H. discriminate H. }
  rewrite <- (ambe2400_oracle _ _ _ _ _ DA), HD in R.
  destruct (mbe_decodeAmbe2400Parms o' (ac_bits cl) (with_errors (ac_errors cl) (ambe_rate (p_errorRate p') (ac_errors cl)) c') p') as [[[bad' c1'] p1']|w] eqn:HD'; [|contradiction].
  destruct R as (B & _ & QP1 & Q0). cbn [fst snd] in *.
  pose proof (harmonics2400_range _ Hd HB) as HL.
  assert (HW : pitch_in_range (radians (exp2f o (exponent2400 (pitch2400 (ac_bits cl)))))) by (apply f0_range; [lia|exact HX]). assert (HW' : pitch_in_range (radians (exp2f o' (exponent2400 (pitch2400 (ac_bits cl)))))) by (apply f0_range; [lia|exact HX']).
  destruct (ambe2400_accepted _ _ _ _ _ _ _ Hd (proj1 (proj1 SW)) HB HX HD) as [-> AC]. destruct (ambe2400_accepted _ _ _ _ _ _ _ Hd (proj1 (proj1 SW')) HB HX' HD') as [-> AC'].
  destruct (accepted_sane _ _ _ _ _ _ _ _ AC SW SP HL HW) as [S1 S2]. destruct (accepted_sane _ _ _ _ _ _ _ _ AC' SW' SP' HL HW') as [S1' S2'].
  assert (RR : p_repeat p1 = p_repeatCount p1 /\ 0 <= p_repeatCount p1 <= 4) by (split; apply S2). assert (RR' : p_repeat p1' = p_repeatCount p1' /\ 0 <= p_repeatCount p1' <= 4) by (split; apply S2').
  rewrite (voice2400_eq _ _ _ _ _ _ _ _ _ _ _ _ _ _ WP BG HD (proj1 S2)) in H by lia. rewrite (voice2400_eq _ _ _ _ _ _ _ _ _ _ _ _ _ _ WP' BG' HD' (proj1 S2')) in H' by lia.
  exact (voice_rest_heard _ _ _ _ _ _ _ _ _ _ _ _ _ _ _ _ _ _ _ _ _ _ _ _ _ _ S1 S1' S2 S2' (proj1 SE) (proj1 SE') LB LB' (Q0 eq_refl) QP1 H H').
Qed.
Lemma begin_heard : forall st st' c p e c' p' e', same_history st st' -> begin st = (c, p, e) -> begin st' = (c', p', e') -> heard c c' /\ same_speech p p'.
Proof.
  intros [[x y] z] [[x' y'] z'] c p e c' p' e' (HC & QP) B B'. unfold begin in *. cbn [cur_of prev_of] in *.
  assert (F : foreign y' = foreign y) by (unfold foreign; destruct QP as (HP & _); assert (E : p_mutingThreshold y' = p_mutingThreshold y) by (unfold heard in HP; intuition congruence); rewrite E; reflexivity).
  rewrite F in B'. destruct (foreign y).
  - rewrite B in B'. injection B' as <- <- <-. pose proof start_alike as A. rewrite B in A. exact A.
  - injection B as -> -> ->. injection B' as -> -> ->. auto.
Qed.
Lemma erased_speech : forall n c c' p p', heard c c' -> heard p p' -> same_speech (erased (with_errors n (ambe_rate (p_errorRate p) n) c) p) (erased (with_errors n (ambe_rate (p_errorRate p') n) c') p').
Proof.
  intros n c c' p p' HC HP. pose proof (errors_heard n c c' p p' HC HP) as H. set (w := with_errors _ _ c) in *. set (w' := with_errors _ _ c') in *. clearbody w w'. unfold erased.
  split; [hfields|]. fields. split; [lia|]. auto.
Qed.
Lemma do2450_heard : forall o o' a a' cl cl' st st' t t' b b' s s' u u' v v', decode_alike o o' -> same_frame cl cl' -> ambe_ok cl -> ambe_ok cl' -> sane_state st -> sane_state st' -> same_history st st' ->
  do2450 o a cl st t = Ok (b, s, u, v) -> do2450 o' a' cl' st' t' = Ok (b', s', u', v') -> s = s' /\ same_history u u'.
Proof.
  intros o o' a a' cl cl' st st' t t' b b' s s' u u' v v' DA SF OK OK' SS SS' SH H H'.
  destruct (begin st) as [[c p] e] eqn:BG. destruct (begin st') as [[c' p'] e'] eqn:BG'. destruct (begin_heard _ _ _ _ _ _ _ _ SH BG BG') as [HC QP].
  assert (KK : kind_of cl' = kind_of cl) by (destruct SF as (E1 & E2 & _); unfold kind_of; rewrite E1, E2; reflexivity).
  destruct (kind_of cl) as [| |hz|] eqn:K.
  - exact (voice2450_heard _ _ _ _ _ _ _ _ _ _ _ _ _ _ _ _ _ _ _ _ _ _ _ _ DA SF OK OK' SS SS' BG BG' HC QP K H H').
  - destruct SF as (E1 & E2 & E3 & E4). destruct OK as (Hd & Hn & LB). destruct OK' as (Hd' & Hn' & LB'). unfold do2450, kind_of in *.
    assert (WP : wf_parms (prev_of st)) by (destruct st as [[x y] z]; destruct SS as (_ & S & _); apply S). assert (WP' : wf_parms (prev_of st')) by (destruct st' as [[x y] z]; destruct SS' as (_ & S & _); apply S).
    pose proof (sane_begin st SS) as SB. rewrite BG in SB. destruct SB as (SC & SP & SE). pose proof (sane_begin st' SS') as SB'. rewrite BG' in SB'. destruct SB' as (SC' & SP' & SE').
    rewrite (erasure_process _ _ _ _ _ _ _ _ _ _ _ _ _ Hd WP BG (proj1 SP) (proj1 SC) K) in H. rewrite (erasure_process _ _ _ _ _ _ _ _ _ _ _ _ _ Hd' WP' BG' (proj1 SP') (proj1 SC') KK) in H'. cbv zeta in H, H'.
    apply bind_inv in H as ([b1 t1] & _ & H). apply bind_inv in H' as ([b2 t2] & _ & H'). apply Ok4 in H as (_ & <- & <- & _). apply Ok4 in H' as (_ & <- & <- & _). rewrite <- E2. split; [reflexivity|].
    pose proof (erased_speech (ac_errors cl) _ _ _ _ HC (proj1 QP)) as Q. split; [exact (proj1 Q)|exact Q].
  - destruct SF as (E1 & E2 & E3 & E4). destruct OK as (Hd & Hn & LB). destruct OK' as (Hd' & Hn' & LB'). unfold do2450, kind_of in *.
    assert (WP : wf_parms (prev_of st)) by (destruct st as [[x y] z]; destruct SS as (_ & S & _); apply S). assert (WP' : wf_parms (prev_of st')) by (destruct st' as [[x y] z]; destruct SS' as (_ & S & _); apply S).
    rewrite (tone_process _ _ _ _ _ _ _ _ _ _ _ _ _ _ Hd LB WP BG K) in H. rewrite (tone_process _ _ _ _ _ _ _ _ _ _ _ _ _ _ Hd' LB' WP' BG' KK) in H'.
    apply Ok4 in H as (_ & <- & <- & _). apply Ok4 in H' as (_ & <- & <- & _). rewrite <- E2. split; [reflexivity|]. split; [|exact QP]. cbn [cur_of].
    pose proof (errors_heard (ac_errors cl) c c' p p' HC (proj1 QP)) as W. set (w := with_errors _ _ c) in *. set (w' := with_errors _ _ c') in *. clearbody w w'.
    unfold tone_turned, no_repeats. destruct (o_tones o), (o_tones o'); hfields.
  - destruct SF as (E1 & E2 & E3 & E4). destruct OK as (Hd & Hn & LB). destruct OK' as (Hd' & Hn' & LB'). unfold do2450, kind_of in *.
    assert (WP : wf_parms (prev_of st)) by (destruct st as [[x y] z]; destruct SS as (_ & S & _); apply S). assert (WP' : wf_parms (prev_of st')) by (destruct st' as [[x y] z]; destruct SS' as (_ & S & _); apply S).
    pose proof (sane_begin st SS) as SB. rewrite BG in SB. destruct SB as (SC & SP & SE). pose proof (sane_begin st' SS') as SB'. rewrite BG' in SB'. destruct SB' as (SC' & SP' & SE').
    rewrite (unknown_process _ _ _ _ _ _ _ _ _ _ _ _ _ Hd WP BG (proj1 SP) K) in H. rewrite (unknown_process _ _ _ _ _ _ _ _ _ _ _ _ _ Hd' WP' BG' (proj1 SP') KK) in H'.
    assert (X : p_repeatCount p' = p_repeatCount p) by (destruct QP as (HP & _); unfold heard in HP; intuition congruence). rewrite X, <- E2 in H'.
    pose proof (errors_heard (ac_errors cl) c c' p p' HC (proj1 QP)) as W. destruct (p_repeatCount p <? 4).
    + apply bind_inv in H as ([[[b1 s1] e1] t1] & _ & H). apply bind_inv in H' as ([[[b2 s2] e2] t2] & _ & H'). apply Ok4 in H as (_ & <- & <- & _). apply Ok4 in H' as (_ & <- & <- & _). split; [reflexivity|].
      split; [|exact QP]. cbn [cur_of]. set (w := with_errors _ _ c) in *. set (w' := with_errors _ _ c') in *. clearbody w w'. unfold no_repeats. hfields.
    + apply bind_inv in H as ([b1 t1] & _ & H). apply bind_inv in H' as ([b2 t2] & _ & H'). apply Ok4 in H as (_ & <- & <- & _). apply Ok4 in H' as (_ & <- & <- & _). split; [reflexivity|apply start_alike].
Qed.
Lemma do2400_heard : forall o o' a a' cl cl' st st' t t' b b' s s' u u' v v', decode_alike o o' -> same_frame cl cl' -> ambe_ok cl -> ambe_ok cl' -> sane_state st -> sane_state st' -> good_exp2 o R2400 -> good_exp2 o' R2400 -> same_history st st' ->
  do2400 o a cl st t = Ok (b, s, u, v) -> do2400 o' a' cl' st' t' = Ok (b', s', u', v') -> s = s' /\ same_history u u'.
Proof.
  intros o o' a a' cl cl' st st' t t' b b' s s' u u' v v' DA SF OK OK' SS SS' GX GX' SH H H'.
  destruct (begin st) as [[c p] e] eqn:BG. destruct (begin st') as [[c' p'] e'] eqn:BG'. destruct (begin_heard _ _ _ _ _ _ _ _ SH BG BG') as [HC QP].
  destruct (voice2400 cl) eqn:K.
  - exact (voice2400_heard _ _ _ _ _ _ _ _ _ _ _ _ _ _ _ _ _ _ _ _ _ _ _ _ DA SF OK OK' SS SS' GX GX' BG BG' HC QP K H H').
  - destruct SF as (E1 & E2 & E3 & E4). assert (K' : voice2400 cl' = false) by (unfold voice2400 in *; rewrite <- E1; exact K).
    rewrite (tone2400_eq _ _ _ _ _ _ _ _ OK SS BG K) in H. rewrite (tone2400_eq _ _ _ _ _ _ _ _ OK' SS' BG' K') in H'.
    apply bind_inv in H as ([b1 t1] & _ & H). apply bind_inv in H' as ([b2 t2] & _ & H'). apply Ok4 in H as (_ & <- & <- & _). apply Ok4 in H' as (_ & <- & <- & _). split; [|apply start_alike].
    unfold marker2400. rewrite E1, E2, E3. reflexivity.
Qed.

(* ---- streams ---- *)
Lemma imbe_heard : forall o o' a a' cs cs', decode_alike o o' -> Forall2 same_call cs cs' -> Forall call_ok cs -> Forall call_ok cs' ->
  forall st st' t t' r r' u u' v v', sane_state st -> sane_state st' -> thread_ok t -> thread_ok t' -> same_history st st' ->
  imbe_stream o a cs st t = Ok (r, u, v) -> imbe_stream o' a' cs' st' t' = Ok (r', u', v') -> map snd r = map snd r' /\ same_history u u'.
Proof.
  intros o o' a a' cs cs' DA F. induction F as [|c c' cs cs' SC F IH]; intros OK OK' st st' t t' r r' u u' v v' SS SS' TH TH' SH H H'; cbn [imbe_stream] in H, H'.
  - injection H as <- <- <-. injection H' as <- <- <-. auto.
  - inversion OK as [|x xs Hc HF]; subst. inversion OK' as [|x xs Hc' HF']; subst.
    apply bind_inv in H as ([[[b s] st1] t1] & H1 & H). apply bind_inv in H as ([[r1 st2] t2] & H2 & H). apply bind_inv in H' as ([[[b' s'] st1'] t1'] & H1' & H'). apply bind_inv in H' as ([[r1' st2'] t2'] & H2' & H').
    destruct (imbe_do_heard _ _ _ _ _ _ _ _ _ _ _ _ _ _ _ _ _ _ DA SC Hc Hc' SS SS' TH TH' SH H1 H1') as (-> & SH1 & SS1 & SS1' & TH1 & TH1').
    destruct (IH HF HF' _ _ _ _ _ _ _ _ _ _ SS1 SS1' TH1 TH1' SH1 H2 H2') as [E Q]. injection H as <- <- <-. injection H' as <- <- <-. cbn [map snd]. rewrite E. auto.
Qed.
Lemma ambe_heard : forall r o o' a a' cs cs', decode_alike o o' -> good_exp2 o r -> Forall2 same_frame cs cs' -> Forall ambe_ok cs -> Forall ambe_ok cs' ->
  forall st st' t t' q q' u u' v v', sane_state st -> sane_state st' -> thread_ok t -> thread_ok t' -> same_history st st' ->
  ambe_stream (do_ambe r o a) cs st t = Ok (q, u, v) -> ambe_stream (do_ambe r o' a') cs' st' t' = Ok (q', u', v') -> map snd q = map snd q' /\ same_history u u'.
Proof.
  intros r o o' a a' cs cs' DA GX F. assert (GX' : good_exp2 o' r). { destruct r; [exact I|]. destruct DA as (_ & E & _). cbn [good_exp2] in *. unfold exp2_close, exp2f in *. rewrite <- E. exact GX. }
  induction F as [|c c' cs cs' SC F IH]; intros OK OK' st st' t t' q q' u u' v v' SS SS' TH TH' SH H H'; cbn [ambe_stream] in H, H'.
  - injection H as <- <- <-. injection H' as <- <- <-. auto.
  - inversion OK as [|x xs Hc HF]; subst. inversion OK' as [|x xs Hc' HF']; subst.
    apply bind_inv in H as ([[[b s] st1] t1] & H1 & H). apply bind_inv in H as ([[r1 st2] t2] & H2 & H). apply bind_inv in H' as ([[[b' s'] st1'] t1'] & H1' & H'). apply bind_inv in H' as ([[r1' st2'] t2'] & H2' & H').
    assert (D : s = s' /\ same_history st1 st1').
    { destruct r; [exact (do2450_heard _ _ _ _ _ _ _ _ _ _ _ _ _ _ _ _ _ _ DA SC Hc Hc' SS SS' SH H1 H1')|exact (do2400_heard _ _ _ _ _ _ _ _ _ _ _ _ _ _ _ _ _ _ DA SC Hc Hc' SS SS' GX GX' SH H1 H1')]. }
    destruct D as [-> SH1]. destruct (ambe_step _ _ _ _ _ _ _ _ _ _ GX Hc SS TH H1) as (SS1 & TH1 & _). destruct (ambe_step _ _ _ _ _ _ _ _ _ _ GX' Hc' SS' TH' H1') as (SS1' & TH1' & _).
    destruct (IH HF HF' _ _ _ _ _ _ _ _ _ _ SS1 SS1' TH1 TH1' SH1 H2 H2') as [E Q]. injection H as <- <- <-. injection H' as <- <- <-. cbn [map snd]. rewrite E. auto.
Qed.
Lemma imbe_streams_heard : forall o o' a a' cs cs' st st' t t' r r' u u' v v',
  decode_alike o o' -> Forall2 same_call cs cs' -> Forall call_ok cs -> Forall call_ok cs' -> sane_state st -> sane_state st' -> thread_ok t -> thread_ok t' -> same_history st st' ->
  imbe_stream o a cs st t = Ok (r, u, v) -> imbe_stream o' a' cs' st' t' = Ok (r', u', v') ->
  map snd r = map snd r' /\ same_history u u'.
Proof. intros o o' a a' cs cs' st st' t t' r r' u u' v v' DA F OK OK' SS SS' TH TH' SH H H'. exact (imbe_heard _ _ _ _ _ _ DA F OK OK' _ _ _ _ _ _ _ _ _ _ SS SS' TH TH' SH H H'). Qed.
Lemma ambe_streams_heard : forall r o o' a a' cs cs' st st' t t' q q' u u' v v',
  decode_alike o o' -> good_exp2 o r -> Forall2 same_frame cs cs' -> Forall ambe_ok cs -> Forall ambe_ok cs' -> sane_state st -> sane_state st' -> thread_ok t -> thread_ok t' -> same_history st st' ->
  ambe_stream (do_ambe r o a) cs st t = Ok (q, u, v) -> ambe_stream (do_ambe r o' a') cs' st' t' = Ok (q', u', v') ->
  map snd q = map snd q' /\ same_history u u'.
Proof. intros r o o' a a' cs cs' st st' t t' q q' u u' v v' DA GX F OK OK' SS SS' TH TH' SH H H'. exact (ambe_heard _ _ _ _ _ _ _ DA GX F OK OK' _ _ _ _ _ _ _ _ _ _ SS SS' TH TH' SH H H'). Qed.
