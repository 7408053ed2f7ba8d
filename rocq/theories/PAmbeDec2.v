(* AMBE 3600x2400 parameter decoding. *)
From Coq Require Import ZArith List Bool Lia.
From Verif Require Import Res F32 TabAmbe2450 TabAmbe2400 MFrame MParms MAdaptive MUnvoiced MSynth MImbe MAmbe
  SpecEcc SpecFrame SpecImbe SpecAmbe PBase PEcc PHam PRun PLoop PArr PFrameImbe PConv PSpeech PDec PImbe PFloat PExp2 PAmbeDec.
Import ListNotations.
Local Open Scope Z_scope.

Lemma codes2400 : forall o b, 0 <= b < 126 -> exp2_close o (exponent2400 b) -> sf_to_int (nth (Z.to_nat b) AmbePlusLtable fzero) = Ok (harmonics2400 b) /\ 9 <= harmonics2400 b <= 56 /\
  forall l, 1 <= l <= harmonics2400 b -> vuv_index (exp2f o (exponent2400 b)) l = Ok (band_of (exp2f o (exponent2400 b)) l) /\ 0 <= band_of (exp2f o (exponent2400 b)) l < 8.
Proof.
  intros o b Hb HE. destruct (power_bound b Hb) as (_ & _ & HL). split; [|split; [exact HL|]].
  - unfold harmonics2400, whole in HL |- *. unfold sf_to_int. destruct (sf_trunc (nth (Z.to_nat b) AmbePlusLtable fzero)) as [z|]; [|lia].
    unfold in_int. destruct ((-2147483648 <=? z) && (z <=? 2147483647)) eqn:F; [reflexivity|lia].
  - intros l Hl. destruct (band2400 o b l Hb HE Hl) as (z & E & R). apply (vuv_index_band _ l z); [lia|exact E|exact R].
Qed.
Lemma pitch2400_range : forall d, is_bits 49 d -> 0 <= pitch2400 d < 128.
Proof. intros d Hd. apply (bits_at_range 49 d [0; 1; 2; 3; 4; 5; 48] Hd). positions. Qed.
Lemma land126 : forall b, 0 <= b < 128 -> (Z.land b 126 =? 126) = (126 <=? b).
Proof.
  intros b Hb. assert (A : forallb (fun b => Bool.eqb (Z.land b 126 =? 126) (126 <=? b)) (zrange 128) = true) by (vm_compute; reflexivity).
  pose proof (zrange_forallb 128 _ A b ltac:(lia)) as E. apply eqb_prop in E. exact E.
Qed.
Lemma ambe2400_f0_eq : forall o b, ambe2400_f0 o b = exp2f o (exponent2400 b).
Proof. reflexivity. Qed.
Lemma radians_eq : forall f0, ambe_w0 f0 = radians f0.
Proof. reflexivity. Qed.
Lemma ambe2400_pitch_ok : forall o d cur, is_bits 49 d -> length (p_Vl cur) = 57%nat -> pitch2400 d < 126 -> exp2_close o (exponent2400 (pitch2400 d)) ->
  let L := harmonics2400 (pitch2400 d) in exists V u, length V = 57%nat /\ (forall l, 1 <= l <= L -> rd V l = Ok (voicing2400 o d l)) /\ (forall l, l < 1 \/ L < l -> rd V l = rd (p_Vl cur) l) /\
  ambe2400_pitch o d (pitch2400 d) cur = Ok (set_Vl V (set_L L (set_w0 (radians (exp2f o (exponent2400 (pitch2400 d)))) cur)), u).
Proof.
  intros o d cur Hd LV Hb HE L. unfold ambe2400_pitch. cbv zeta. pose proof (pitch2400_range d Hd) as R0. unfold voicing2400. set (b0 := pitch2400 d) in *.
  pose proof (bits_at_range 49 d [38; 39; 40; 41] Hd ltac:(positions)) as R1. change (2 ^ Z.of_nat (length [38; 39; 40; 41])) with 16 in R1.
  rewrite ambe2400_f0_eq. destruct (codes2400 o b0 ltac:(lia) HE) as (E & RL & HF). fold L in E, RL, HF. set (f0 := exp2f o (exponent2400 b0)) in *.
  rewrite (rd_nth AmbePlusLtable b0 fzero) by (change (Z.of_nat (length AmbePlusLtable)) with 126; lia). cbn [bind]. rewrite E. cbn [bind].
  rewrite (bits_msb_ok 49) by (exact Hd || (cbn; lia) || positions). cbn [bind]. fields.
  destruct (vuv_loop_ok AmbePlusVuv 16 (bits_at d [38; 39; 40; 41]) f0 L (p_Vl cur)) as (V & EV & L1 & V1 & V2);
    [apply shape_b_ok; vm_compute; reflexivity|lia|exact LV|lia|exact HF|].
  rewrite EV. cbn [bind]. eexists V, _. split; [exact L1|]. split; [exact V1|]. split; [exact V2|]. rewrite radians_eq. reflexivity.
Qed.
Lemma ambe2400_run : forall o d cur prev, is_bits 49 d -> length (p_Vl cur) = 57%nat -> pitch2400 d < 126 -> exp2_close o (exponent2400 (pitch2400 d)) ->
  let L := harmonics2400 (pitch2400 d) in exists V u Tl, length V = 57%nat /\ length Tl = 57%nat /\ (forall l, 1 <= l <= L -> rd V l = Ok (voicing2400 o d l)) /\ (forall l, l < 1 \/ L < l -> rd V l = rd (p_Vl cur) l) /\
  mbe_decodeAmbe2400Parms o d cur prev =
    (prev' <- ambe_extend_prev L prev ;;
     cur' <- ambe_predict o u L prev' Tl (set_gamma (fadd (gain2400 d) (fmul fhalf (p_gamma prev))) (set_Vl V (set_L L (set_w0 (radians (exp2f o (exponent2400 (pitch2400 d)))) (set_repeat (p_repeat prev) cur))))) ;;
     Ok (0, cur', prev')).
Proof.
  intros o d cur prev Hd LV Hb HE L. unfold mbe_decodeAmbe2400Parms. cbv zeta. pose proof (pitch2400_range d Hd) as R0.
  rewrite (bits_msb_ok 49) by (exact Hd || (cbn; lia) || positions). cbn [bind]. fold (pitch2400 d). rewrite land126 by exact R0.
  destruct (Z.leb_spec 126 (pitch2400 d)); [lia|].
  destruct (ambe2400_pitch_ok o d (set_repeat (p_repeat prev) cur) Hd LV Hb HE) as (V & u & L1 & V1 & V2 & EP). fields. rewrite EP. cbn [bind]. fold L in V1, V2 |- *.
  do 7 (rewrite (bits_msb_ok 49) by (exact Hd || (cbn; lia) || positions); cbn [bind]).
  destruct (power_bound (pitch2400 d) ltac:(lia)) as (_ & _ & HL). fold L in HL.
  destruct (amplitudes_run o tables2400 64 16 16 16 16 u L (bits_at d [6; 7; 8; 9; 42; 43]) (bits_at d [10; 11; 12; 13; 14; 15; 16; 44; 45]) (bits_at d [17; 18; 19; 20; 21; 46; 47])
    (bits_at d [22; 23; 25; 26]) (bits_at d [27; 28; 29; 30]) (bits_at d [31; 32; 33; 34]) (2 * bits_at d [35; 36; 37]) (set_Vl V (set_L L (set_w0 (radians (exp2f o (exponent2400 (pitch2400 d)))) (set_repeat (p_repeat prev) cur)))) prev
    codebooks2400 HL) as (Tl & L2 & EA);
    try (match goal with |- 0 <= bits_at d ?ps < _ => exact (bits_at_range 49 d ps Hd ltac:(positions)) end).
  { pose proof (bits_at_range 49 d [35; 36; 37] Hd ltac:(positions)) as R. change (2 ^ Z.of_nat (length [35; 36; 37])) with 8 in R. change (Z.of_nat 16) with 16. lia. }
  fields. rewrite EA. exists V, u, Tl. split; [exact L1|]. split; [exact L2|]. split; [exact V1|]. split; [exact V2|].
  change (nth (Z.to_nat (bits_at d [6; 7; 8; 9; 42; 43])) (at_Dg tables2400) fzero) with (gain2400 d).
  destruct (ambe_extend_prev L prev) as [p|]; [|reflexivity]. cbn [bind].
  match goal with |- context [ambe_predict ?o ?u ?L ?p ?T ?c] => destruct (ambe_predict o u L p T c) end; reflexivity.
Qed.
Lemma tone_index_ok : forall d, is_bits 49 d -> ambe2400_tone_index d = Ok (tone2400 d) /\ 0 <= tone2400 d < 256.
Proof.
  intros d Hd. unfold ambe2400_tone_index, tone2400. rewrite (bits_msb_ok 49) by (exact Hd || (cbn; lia) || positions). cbn [bind].
  pose proof (bits_at_range 49 d [6; 7; 8] Hd ltac:(positions)) as R. change (2 ^ Z.of_nat (length [6; 7; 8])) with 8 in R. set (x := bits_at d [6; 7; 8]) in *. clearbody x.
  rewrite (rd_nth t7tab x 0), (rd_nth t6tab x 0), (rd_nth t5tab x 0) by (cbn; lia). cbn [bind].
  rewrite (bits_msb_ok 49) by (exact Hd || (cbn; lia) || positions). cbn [bind].
  pose proof (bits_at_range 49 d [9; 42; 43; 10; 11] Hd ltac:(positions)) as R2. change (2 ^ Z.of_nat (length [9; 42; 43; 10; 11])) with 32 in R2. set (y := bits_at d [9; 42; 43; 10; 11]) in *. clearbody y.
  assert (A : forallb (fun x => let h := Z.lor (Z.shiftl (nth (Z.to_nat x) t7tab 0) 7) (Z.lor (Z.shiftl (nth (Z.to_nat x) t6tab 0) 6) (Z.shiftl (nth (Z.to_nat x) t5tab 0) 5)) in
    (h =? tone_high x * 2 ^ 5) && (0 <=? tone_high x) && (tone_high x <=? 7)) (zrange 8) = true) by (vm_compute; reflexivity).
  pose proof (zrange_forallb 8 _ A x ltac:(lia)) as E. cbv beta zeta in E. apply andb_true_iff in E as [E E3]. apply andb_true_iff in E as [E1 E2]. apply Z.eqb_eq in E1.
  split; [|lia]. f_equal. rewrite (Z.lor_assoc (Z.shiftl (nth (Z.to_nat x) t6tab 0) 6)), Z.lor_assoc, E1. rewrite lor_add by (change (2 ^ 5) with 32; lia). change (2 ^ 5) with 32. lia.
Qed.
Lemma ambe2400_tone : forall o d cur prev, is_bits 49 d -> 126 <= pitch2400 d -> 5 <= tone2400 d <= 122 ->
  mbe_decodeAmbe2400Parms o d cur prev = Ok (tone2400 d, set_repeat (p_repeat prev) cur, prev).
Proof.
  intros o d cur prev Hd Hb HT. unfold mbe_decodeAmbe2400Parms. cbv zeta. pose proof (pitch2400_range d Hd) as R0.
  rewrite (bits_msb_ok 49) by (exact Hd || (cbn; lia) || positions). cbn [bind]. fold (pitch2400 d). rewrite land126 by exact R0.
  destruct (Z.leb_spec 126 (pitch2400 d)); [|lia]. destruct (tone_index_ok d Hd) as [E _]. rewrite E. cbn [bind].
  destruct ((5 <=? tone2400 d) && (tone2400 d <=? 122)) eqn:F; [reflexivity|lia].
Qed.
Lemma ambe2400_dual : forall o d cur prev, is_bits 49 d -> 126 <= pitch2400 d -> 128 <= tone2400 d <= 163 ->
  mbe_decodeAmbe2400Parms o d cur prev = Ok (3, set_repeat (p_repeat prev) cur, prev).
Proof.
  intros o d cur prev Hd Hb HT. unfold mbe_decodeAmbe2400Parms. cbv zeta. pose proof (pitch2400_range d Hd) as R0.
  rewrite (bits_msb_ok 49) by (exact Hd || (cbn; lia) || positions). cbn [bind]. fold (pitch2400 d). rewrite land126 by exact R0.
  destruct (Z.leb_spec 126 (pitch2400 d)); [|lia]. destruct (tone_index_ok d Hd) as [E _]. rewrite E. cbn [bind].
  destruct ((5 <=? tone2400 d) && (tone2400 d <=? 122)) eqn:F; [lia|]. destruct ((128 <=? tone2400 d) && (tone2400 d <=? 163)) eqn:G; [reflexivity|lia].
Qed.
Lemma ambe2400_silence : forall o d cur prev, is_bits 49 d -> length (p_Vl cur) = 57%nat -> 126 <= pitch2400 d -> ~ (5 <= tone2400 d <= 122) -> ~ (128 <= tone2400 d <= 163) ->
  exists V, length V = 57%nat /\ (forall l, 1 <= l <= 14 -> rd V l = Ok 0) /\ (forall l, l < 1 \/ 14 < l -> rd V l = rd (p_Vl cur) l) /\
  mbe_decodeAmbe2400Parms o d cur prev = Ok (3, set_Vl V (set_L 14 (set_w0 (d2f (ddiv (dmul (d_of_Z 2) M_PI) (d_of_Z 32))) (set_repeat (p_repeat prev) cur))), prev).
Proof.
  intros o d cur prev Hd LV Hb H1 H2. unfold mbe_decodeAmbe2400Parms. cbv zeta. pose proof (pitch2400_range d Hd) as R0.
  rewrite (bits_msb_ok 49) by (exact Hd || (cbn; lia) || positions). cbn [bind]. fold (pitch2400 d). rewrite land126 by exact R0.
  destruct (Z.leb_spec 126 (pitch2400 d)); [|lia]. destruct (tone_index_ok d Hd) as [E _]. rewrite E. cbn [bind].
  destruct ((5 <=? tone2400 d) && (tone2400 d <=? 122)) eqn:F; [lia|]. destruct ((128 <=? tone2400 d) && (tone2400 d <=? 163)) eqn:G; [lia|].
  destruct (clear_vl_ok 14 (p_Vl (set_repeat (p_repeat prev) cur)) LV) as (V & EV & L1 & V1 & V2); [lia|]. rewrite EV. cbn [bind].
  exists V. split; [exact L1|]. split; [exact V1|]. split; [exact V2|]. reflexivity.
Qed.
Lemma ambe2400_accepted : forall o d cur prev bad cur' prev', is_bits 49 d -> length (p_Vl cur) = 57%nat -> pitch2400 d < 126 -> exp2_close o (exponent2400 (pitch2400 d)) ->
  mbe_decodeAmbe2400Parms o d cur prev = Ok (bad, cur', prev') ->
  bad = 0 /\ ambe_accepted (harmonics2400 (pitch2400 d)) (radians (exp2f o (exponent2400 (pitch2400 d)))) (gain2400 d) (voicing2400 o d) cur prev cur' prev'.
Proof.
  intros o d cur prev bad cur' prev' Hd LV Hb HX H. destruct (ambe2400_run o d cur prev Hd LV Hb HX) as (V & u & Tl & L1 & L2 & V1 & V2 & E).
  rewrite E in H. apply bind_inv in H as (p & E1 & H). apply bind_inv in H as (c & E2 & H). injection H as <- <- <-. split; [reflexivity|].
  eapply ambe_finish; [exact V1| |exact E1|exact E2]. split; [congruence|exact V2].
Qed.
Lemma harmonics2400_range : forall d, is_bits 49 d -> pitch2400 d < 126 -> 9 <= harmonics2400 (pitch2400 d) <= 56.
Proof. intros d Hd H. pose proof (pitch2400_range d Hd). apply power_bound. lia. Qed.
Lemma ambe2400_total : forall o d cur prev, is_bits 49 d -> wf_parms cur -> pitch2400 d < 126 -> exp2_close o (exponent2400 (pitch2400 d)) -> prev_ok (harmonics2400 (pitch2400 d)) prev ->
  exists bad cur' prev', mbe_decodeAmbe2400Parms o d cur prev = Ok (bad, cur', prev').
Proof.
  intros o d cur prev Hd WC Hb HX [WP LP]. pose proof (harmonics2400_range d Hd Hb) as HL.
  destruct (ambe2400_run o d cur prev Hd) as (V & u & Tl & L1 & L2 & V1 & V2 & ->); [apply WC|exact Hb|exact HX|].
  set (L := harmonics2400 (pitch2400 d)) in *.
  destruct (ambe_extend_total L prev WP) as (p1 & -> & B & S); [lia|lia|]. cbn [bind].
  match goal with |- context [ambe_predict o u L p1 Tl ?c] => destruct (ambe_predict_total o u L p1 Tl c) as (c1 & -> & _) end; [| |lia|exact L2|].
  - split; [eapply but_logs_wf; eassumption|]. rewrite B. exact LP.
  - destruct WC as (W1 & W). split; [exact L1|exact W].
  - cbn [bind]. eauto.
Qed.
Lemma ambe2400_oob : forall o d cur prev, is_bits 49 d -> length (p_Vl cur) = 57%nat -> pitch2400 d < 126 -> exp2_close o (exponent2400 (pitch2400 d)) ->
  wf_parms prev -> p_L prev = 56 -> safe56 (harmonics2400 (pitch2400 d)) = false -> mbe_decodeAmbe2400Parms o d cur prev = UB OOB.
Proof.
  intros o d cur prev Hd LV Hb HX WP LP SF. pose proof (harmonics2400_range d Hd Hb) as HL.
  destruct (ambe2400_run o d cur prev Hd LV Hb HX) as (V & u & Tl & L1 & L2 & V1 & V2 & ->). set (L := harmonics2400 (pitch2400 d)) in *.
  destruct (ambe_extend_total L prev WP) as (p1 & -> & B & S); [lia|lia|]. cbn [bind]. unfold ambe_predict. cbv zeta.
  rewrite sum43_oob; [reflexivity|eapply but_logs_wf; eassumption|rewrite B; exact LP|lia|exact SF].
Qed.

(* ---- statements for the property file ---- *)
Lemma safe56_false : forall L, L <> 23 -> L <> 46 -> safe56 L = false.
Proof. intros L A B. unfold safe56. lia. Qed.
Lemma ambe2450_return : forall o d cur prev e bad cur' prev', is_bits 49 d -> length (p_Vl cur) = 57%nat -> mbe_decodeAmbe2450ParmsInternal o d cur prev e = Ok (bad, cur', prev') ->
  (bad = 7 <-> tone2450 d /\ e < 6) /\ (bad = 2 <-> ~ (tone2450 d /\ e < 6) /\ erasure2450 (pitch2450 d)) /\ (bad = 0 <-> ~ (tone2450 d /\ e < 6) /\ ~ erasure2450 (pitch2450 d)).
Proof.
  intros o d cur prev e bad cur' prev' Hd LV H.
  assert (D1 : (tone2450 d /\ e < 6) \/ ~ (tone2450 d /\ e < 6)).
  { destruct (tone_verified_ok d Hd) as (b & _ & HB). destruct b; destruct (Z_lt_ge_dec e 6) as [A|A].
    - left. split; [apply HB; reflexivity|exact A].
    - right. intros [_ C]. lia.
    - right. intros [C _]. apply HB in C. discriminate C.
    - right. intros [_ C]. lia. }
  assert (D2 : erasure2450 (pitch2450 d) \/ ~ erasure2450 (pitch2450 d)) by (unfold erasure2450; lia).
  destruct D1 as [T|NT].
  - rewrite (ambe2450_tone o d cur prev e Hd (proj1 T) (proj2 T)) in H. injection H as <- _ _. intuition discriminate.
  - destruct D2 as [E|NE].
    + rewrite (ambe2450_erasure o d cur prev e Hd NT E) in H. injection H as <- _ _. intuition discriminate.
    + destruct (ambe2450_accepted o d cur prev e bad cur' prev' Hd LV NT NE H) as [-> _]. intuition discriminate.
Qed.
Lemma usable_prev_ok : forall L prev, usable_history L prev -> prev_ok L prev.
Proof. intros L prev [W H]. split; [exact W|]. unfold safe56. destruct H as [H|[-> [-> | ->]]]; auto. Qed.
Lemma ambe2450_defined : forall o d cur prev e, is_bits 49 d -> wf_parms cur -> usable_history (harmonics2450 (pitch2450 d)) prev ->
  exists bad cur' prev', mbe_decodeAmbe2450ParmsInternal o d cur prev e = Ok (bad, cur', prev').
Proof.
  intros o d cur prev e Hd WC U. assert (D2 : erasure2450 (pitch2450 d) \/ ~ erasure2450 (pitch2450 d)) by (unfold erasure2450; lia).
  destruct (tone_verified_ok d Hd) as (b & _ & HB). destruct (b && (e <? 6)) eqn:F.
  - apply andb_true_iff in F as [F1 F2]. rewrite ambe2450_tone; [eauto|exact Hd|apply HB, F1|lia].
  - assert (NT : ~ (tone2450 d /\ e < 6)) by (intros [A B]; apply HB in A; subst b; cbn in F; lia).
    destruct D2 as [E|NE]; [rewrite ambe2450_erasure by assumption; eauto|]. apply ambe2450_total; try assumption. apply usable_prev_ok, U.
Qed.
Lemma ambe2450_outside : forall o d cur prev e, is_bits 49 d -> length (p_Vl cur) = 57%nat -> ~ (tone2450 d /\ e < 6) -> ~ erasure2450 (pitch2450 d) ->
  wf_parms prev -> p_L prev = 56 -> harmonics2450 (pitch2450 d) <> 23 -> harmonics2450 (pitch2450 d) <> 46 -> mbe_decodeAmbe2450ParmsInternal o d cur prev e = UB OOB.
Proof. intros. apply ambe2450_oob; auto using safe56_false. Qed.
Lemma ambe2400_outside : forall o d cur prev, is_bits 49 d -> length (p_Vl cur) = 57%nat -> pitch2400 d < 126 -> exp2_close o (exponent2400 (pitch2400 d)) ->
  wf_parms prev -> p_L prev = 56 -> harmonics2400 (pitch2400 d) <> 23 -> harmonics2400 (pitch2400 d) <> 46 -> mbe_decodeAmbe2400Parms o d cur prev = UB OOB.
Proof. intros. apply ambe2400_oob; auto using safe56_false. Qed.
Lemma ambe2400_return : forall o d cur prev bad cur' prev', is_bits 49 d -> length (p_Vl cur) = 57%nat -> (pitch2400 d < 126 -> exp2_close o (exponent2400 (pitch2400 d))) ->
  mbe_decodeAmbe2400Parms o d cur prev = Ok (bad, cur', prev') ->
  (bad = 0 <-> pitch2400 d < 126) /\ (5 <= bad <-> 126 <= pitch2400 d /\ 5 <= tone2400 d <= 122) /\ (bad = 3 <-> 126 <= pitch2400 d /\ ~ 5 <= tone2400 d <= 122) /\ bad <> 2 /\ (5 <= bad -> bad = tone2400 d).
Proof.
  intros o d cur prev bad cur' prev' Hd LV HX H. destruct (Z_lt_ge_dec (pitch2400 d) 126) as [A|A].
  - destruct (ambe2400_accepted o d cur prev bad cur' prev' Hd LV A (HX A) H) as [-> _]. repeat split; intros; lia.
  - assert (D : 5 <= tone2400 d <= 122 \/ 128 <= tone2400 d <= 163 \/ (~ 5 <= tone2400 d <= 122 /\ ~ 128 <= tone2400 d <= 163)) by lia. destruct D as [D|[D|[D1 D2]]].
    + rewrite ambe2400_tone in H by (exact Hd || lia). injection H as <- _ _. repeat split; intros; lia.
    + rewrite ambe2400_dual in H by (exact Hd || lia). injection H as <- _ _. repeat split; intros; lia.
    + destruct (ambe2400_silence o d cur prev Hd LV ltac:(lia) D1 D2) as (V & _ & _ & _ & E). rewrite E in H. assert (bad = 3) as -> by (apply (f_equal (fun r => match r with Ok (x, _, _) => x | UB _ => 0 end)) in H; symmetry; exact H). repeat split; intros; lia.
Qed.
Lemma ambe2400_defined : forall o d cur prev, is_bits 49 d -> wf_parms cur -> (pitch2400 d < 126 -> exp2_close o (exponent2400 (pitch2400 d)) /\ usable_history (harmonics2400 (pitch2400 d)) prev) ->
  exists bad cur' prev', mbe_decodeAmbe2400Parms o d cur prev = Ok (bad, cur', prev').
Proof.
  intros o d cur prev Hd WC HX. destruct (Z_lt_ge_dec (pitch2400 d) 126) as [A|A].
  - destruct (HX A) as [X U]. apply ambe2400_total; try assumption. apply usable_prev_ok, U.
  - assert (D : 5 <= tone2400 d <= 122 \/ 128 <= tone2400 d <= 163 \/ (~ 5 <= tone2400 d <= 122 /\ ~ 128 <= tone2400 d <= 163)) by lia. destruct D as [D|[D|[D1 D2]]].
    + rewrite ambe2400_tone by (exact Hd || lia). eauto.
    + rewrite ambe2400_dual by (exact Hd || lia). eauto.
    + destruct (ambe2400_silence o d cur prev Hd (proj1 WC) ltac:(lia) D1 D2) as (V & _ & _ & _ & E). rewrite E. eauto.
Qed.
