(* Safe use of the whole interface: one call, and every schedule. *)
From Coq Require Import ZArith List Bool Lia SpecFloat.
From Verif Require Import Res F32 MFrame MParms MAdaptive MUnvoiced MSynth MImbe MAmbe SpecEcc SpecFrame SpecState SpecOut SpecWola SpecMachine SpecAmbeMachine MApi SpecSched SpecSafe.
From Verif Require Import PRun PState PSpeech POut PShort PStream PAmbeMachine PSafe.
Import ListNotations.
Local Open Scope Z_scope.

Definition goes_on (o : oracle) (k : call) (g : Z -> grade) (h : heap) (T : Z) (r : res (answer * heap * tls)) : Prop :=
  (exists x h' t', r = Ok (x, h', t') /\ inv (T + 6000) (after_call k g) h' /\ thread_ok t') \/ (exists w, r = UB w /\ excused o h k w).
Lemma ready_state : forall T g h c p e, inv T g h -> g c = Ready -> g p = Ready -> g e = Ready -> sane_state (h c, h p, h e) /\ below T (h c, h p, h e).
Proof.
  intros T g h c p e HI GC GP GE. pose proof (HI c) as HC. pose proof (HI p) as HP. pose proof (HI e) as HE. rewrite GC in HC. rewrite GP in HP. rewrite GE in HE.
  destruct HC, HP, HE. split; [split; [assumption|split; assumption]|split; [assumption|split; assumption]].
Qed.
Lemma put3_inv : forall T g h c p e st, inv T g h -> g c = Ready -> g p = Ready -> g e = Ready -> sane_state st -> below T st -> inv T g (put3 c p e st h).
Proof.
  intros T g h c p e [[x y] z] HI GC GP GE (SX & SY & SZ) (BX & BY & BZ). cbn [cur_of prev_of enh_of put3] in *.
  apply inv_put; [apply inv_put; [apply inv_put; [exact HI|rewrite GC]|rewrite GP]|rewrite GE]; split; assumption.
Qed.
Lemma served_goes : forall o T g h c p e k (S : Type) (mk : list S -> list Z -> answer) r, inv T g h -> g c = Ready -> g p = Ready -> g e = Ready -> after_call k g = g -> history k = Some p ->
  served T (p_L (h p)) r -> goes_on o k g h T ('(b, s, st, t) <- r ;; Ok (mk b s, put3 c p e st h, t)).
Proof.
  intros o T g h c p e k S mk r HI GC GP GE EA EH [(b & s & st' & t' & -> & S1 & T1 & LB & BT)|[-> E]].
  - left. cbn [bind]. do 3 eexists. split; [reflexivity|]. rewrite EA. split; [|exact T1]. apply put3_inv; auto. apply (inv_more T); [lia|exact HI].
  - right. cbn [bind]. exists OOB. split; [reflexivity|]. left. split; [reflexivity|]. exists p. auto.
Qed.
Lemma served_short_goes : forall o T g h c p e k (mk : list Z -> list Z -> answer) r, inv T g h -> g c = Ready -> g p = Ready -> g e = Ready -> after_call k g = g -> history k = Some p -> delivers_shorts k = true ->
  served_short o T (p_L (h p)) r -> goes_on o k g h T ('(b, s, st, t) <- r ;; Ok (mk b s, put3 c p e st h, t)).
Proof.
  intros o T g h c p e k mk r HI GC GP GE EA EH ED [H|[-> E]]; [apply served_goes; assumption|].
  right. exists BadConv. split; [reflexivity|]. right. auto.
Qed.
Lemma framed_pair : forall o aout (f : res (frame_out f32)) (r : res (frame_out Z)), frame_pair r = then_short o aout (frame_pair f) -> assoc4 (framed r) = then_short o aout (assoc4 (framed f)).
Proof.
  intros o aout [f|w] [r|w'] H; cbn [frame_pair then_short framed assoc4] in *; try congruence; destruct (mbe_floattoshort o (fo_aout f) aout) as [x|w]; try congruence.
  unfold frame_rest in H. injection H as E1 _ _ E2 _ _ E3 E4. congruence.
Qed.
Lemma same_bind : forall {S} (r : res (frame_out S)) (mk : frame_out S -> answer) c p e h o k g T,
  (goes_on o k g h T ('(b, s, st, t) <- framed r ;; Ok (Nothing, put3 c p e st h, t))) -> goes_on o k g h T (x <- r ;; Ok (mk x, put3 c p e (fo_st x) h, fo_tls x)).
Proof.
  intros S [x|w] mk c p e h o k g T H; [|exact H]. cbn [framed bind] in *. destruct H as [(y & h' & t' & E & H1 & H2)|(w & E & _)]; [|discriminate E].
  left. injection E as _ <- <-. do 3 eexists. split; [reflexivity|]. auto.
Qed.
Lemma wf_all : forall T g h a, inv T g h -> wf_parms (h a). Proof. intros T g h a H. exact (holds_wf _ _ _ (H a)). Qed.
Lemma tone_holds : forall T g m x y, holds T g m -> holds T g (set_un x (set_swn y m)).
Proof. intros T [] m x y H; exact H. Qed.
Lemma zeros160 : frame_buffer (repeat fzero 160). Proof. exact zeros_buffer. Qed.

Lemma init_goes : forall o c p e g h t T, inv T g h -> thread_ok t -> roomy T -> goes_on o (Init c p e) g h T (api o (Init c p e) h t).
Proof.
  intros o c p e g h t T HI TH RT. left. cbn [api]. rewrite init_mbe by (apply (wf_all _ _ _ _ HI)). cbn [bind]. do 3 eexists. split; [reflexivity|]. split; [|exact TH].
  intros a. cbn [after_call put3]. unfold put. assert (Q : holds (T + 6000) Ready imbe_initial) by (split; [apply sane_start|change (20480 <= T + 6000); destruct RT; lia]).
  destruct (a =? e); [rewrite orb_true_r; exact Q|]. destruct (a =? p); [rewrite !orb_true_r; exact Q|]. destruct (a =? c); [exact Q|]. cbn [orb]. apply (holds_more T); [lia|apply HI].
Qed.
Lemma move_holds : forall T g h src dst, inv T g h -> inv (T + 6000) (fun a => if a =? dst then g src else g a) (put dst (h src) h).
Proof. intros T g h src dst HI a. unfold put. destruct (a =? dst); apply (holds_more T); try lia; apply HI. Qed.
Lemma speech_goes : forall o buf c p uv g h t T, inv T g h -> thread_ok t -> roomy T -> well_called (Speechf buf c p uv) -> well_fed g (Speechf buf c p uv) -> goes_on o (Speechf buf c p uv) g h T (api o (Speechf buf c p uv) h t).
Proof.
  intros o buf c p uv g h t T HI TH RT WC (ND & FC & FP). destruct (holds_filled _ _ _ FC (HI c)) as [MC TC]. destruct (holds_filled _ _ _ FP (HI p)) as [MP TP].
  destruct (speech_safe o buf c (h c) (h p) uv t T WC MC MP RT TP TH) as (b & c' & p' & t' & H & LB & T1 & B1 & B2 & W1 & W2 & S1 & A1).
  left. cbn [api]. rewrite H. cbn [bind]. do 3 eexists. split; [reflexivity|]. split; [|exact T1].
  destruct (speech_holds T (g c) (g p) (h c) (h p) c' p' FC FP (HI c) (HI p) B1 B2 W1 W2 S1 A1) as [X Y]. apply inv_put; [apply inv_put; [apply (inv_more T); [lia|exact HI]|exact X]|exact Y].
Qed.
Lemma speech_short_goes : forall o buf c p uv g h t T, inv T g h -> thread_ok t -> roomy T -> well_called (Speech buf c p uv) -> well_fed g (Speech buf c p uv) -> goes_on o (Speech buf c p uv) g h T (api o (Speech buf c p uv) h t).
Proof.
  intros o buf c p uv g h t T HI TH RT WC (ND & FC & FP). destruct (holds_filled _ _ _ FC (HI c)) as [MC TC]. destruct (holds_filled _ _ _ FP (HI p)) as [MP TP].
  destruct (speech_safe o (repeat fzero 160) c (h c) (h p) uv t T (repeat_length _ _) MC MP RT TP TH) as (b & c' & p' & t' & H & LB & T1 & B1 & B2 & W1 & W2 & S1 & A1).
  pose proof (short_speech o buf c (h c) (h p) uv t _ zeros160) as E. rewrite H in E. cbn [assoc4] in E. cbn [api].
  destruct (shorten o buf (Ok (b, (c', p', t'))) b _ eq_refl LB WC) as [(z & Ez & _)|[Ez EO]]; rewrite Ez in E.
  - left. destruct (mbe_synthesizeSpeech o buf c (h c) (h p) uv t) as [[[[z' x] y] t1]|w]; [|discriminate E]. cbn [assoc4] in E. injection E as -> -> -> ->. cbn [bind]. do 3 eexists. split; [reflexivity|]. split; [|exact T1].
    destruct (speech_holds T (g c) (g p) (h c) (h p) c' p' FC FP (HI c) (HI p) B1 B2 W1 W2 S1 A1) as [X Y]. apply inv_put; [apply inv_put; [apply (inv_more T); [lia|exact HI]|exact X]|exact Y].
  - right. exists BadConv. split; [|right; auto]. destruct (mbe_synthesizeSpeech o buf c (h c) (h p) uv t) as [[[[z' x] y] t1]|w]; [discriminate E|]. cbn [assoc4] in E. cbn [bind]. congruence.
Qed.
Lemma decode_goes : forall o f d c p g h t T, good_exp2 o R2400 -> inv T g h -> thread_ok t -> roomy T -> well_called (Decode f d c p) -> well_fed g (Decode f d c p) -> goes_on o (Decode f d c p) g h T (api o (Decode f d c p) h t).
Proof.
  intros o f d c p g h t T HX HI TH RT WC (ND & FC & FP). destruct (holds_filled _ _ _ FC (HI c)) as [MC TC]. destruct (holds_filled _ _ _ FP (HI p)) as [MP TP]. cbn [api].
  assert (NE : c <> p) by (inversion ND as [|? ? NI _]; subst; intros ->; apply NI; left; reflexivity).
  destruct (decode_safe f o d (h c) (h p) HX WC MC MP) as [(bad & c' & p' & E & M1 & A1 & W1 & EP)|[E EL]]; rewrite E; cbn [bind].
  - left. do 3 eexists. split; [reflexivity|]. split; [|exact TH]. intros a. cbn [after_call]. unfold put. destruct (Z.eqb_spec a p) as [->|N1].
    + replace (p =? c) with false by lia. apply (holds_change T _ (g p) (h p) p'); auto; try (rewrite EP; reflexivity); [rewrite EP; apply MP|rewrite EP; change (p_amplitudeThreshold (h p) <= T + 6000); lia].
    + destruct (a =? c); [split; [exact M1|lia]|]. apply (holds_more T); [lia|apply HI].
  - right. exists OOB. split; [reflexivity|]. left. split; [reflexivity|]. exists p. auto.
Qed.
Lemma api_safe : forall o k g h t T, good_exp2 o R2400 -> inv T g h -> thread_ok t -> roomy T -> well_called k -> well_fed g k -> goes_on o k g h T (api o k h t).
Proof.
  intros o k g h t T HX HI TH RT WC WF. assert (HI6 : inv (T + 6000) g h) by (apply (inv_more T); [lia|exact HI]).
  destruct k as [c p e|src dst|dst src|c|c p|c|c|c|buf c p uv|buf c p uv|buf d c|buf c id|f d c p|f buf errs n d c p e uv|f buf errs n d c p e uv|f buf fr d c p e uv|f buf fr d c p e uv|s|buf|buf].
  - apply init_goes; assumption.
  - left. do 3 eexists. split; [reflexivity|]. split; [apply move_holds, HI|exact TH].
  - left. do 3 eexists. split; [reflexivity|]. split; [apply move_holds, HI|exact TH].
  - destruct WF as (_ & FC). destruct (holds_filled _ _ _ FC (HI c)) as [MC TC]. destruct (enhance_safe o c (h c) t MC) as (m & t' & E & EM & W & TT). cbn [api]. rewrite E. cbn [bind].
    left. do 3 eexists. split; [reflexivity|]. split; [|exact (TT TH)]. apply inv_put; [exact HI6|]. apply (holds_change T _ (g c) (h c)); auto; try (rewrite EM; reflexivity); [rewrite EM; apply MC|rewrite EM; change (p_amplitudeThreshold (h c) <= T + 6000); lia].
  - destruct WF as (_ & FC & FP). destruct (holds_filled _ _ _ FC (HI c)) as [MC TC]. destruct (holds_filled _ _ _ FP (HI p)) as [MP TP].
    destruct (smooth_safe o c (h c) (h p) t T MC MP RT TP) as (m & t' & E & EM & W & A & TT). cbn [api]. rewrite E. cbn [bind].
    left. do 3 eexists. split; [reflexivity|]. split; [|exact (TT TH)]. apply inv_put; [exact HI6|]. apply (holds_change T _ (g c) (h c)); auto; try (rewrite EM; reflexivity). rewrite EM; apply MC.
  - left. do 3 eexists. split; [reflexivity|]. auto.
  - left. do 3 eexists. split; [reflexivity|]. auto.
  - left. do 3 eexists. split; [reflexivity|]. auto.
  - apply speech_goes; assumption.
  - apply speech_short_goes; assumption.
  - destruct WC as [LB Hd]. destruct (render_any o buf d (h c) Hd LB) as (b & x & y & E). cbn [api]. rewrite E. cbn [bind]. left. do 3 eexists. split; [reflexivity|]. split; [|exact TH]. apply inv_put; [exact HI6|]. apply tone_holds, HI6.
  - destruct (dstar_any o buf id (h c) WC) as (b & x & y & E). cbn [api]. rewrite E. cbn [bind]. left. do 3 eexists. split; [reflexivity|]. split; [|exact TH]. apply inv_put; [exact HI6|]. apply tone_holds, HI6.
  - apply decode_goes; assumption.
  - destruct WC as (LB & Hn & Hd). destruct WF as (_ & GC & GP & GE). destruct (ready_state T g h c p e HI GC GP GE) as [SS BT]. cbn [api].
    apply (served_goes o T g h c p e (Dataf f buf errs n d c p e uv) f32 FloatsStatus); auto. exact (dataf_served f o c buf errs n d _ uv t T HX LB Hn Hd SS TH RT BT).
  - destruct WC as (LB & Hn & Hd). destruct WF as (_ & GC & GP & GE). destruct (ready_state T g h c p e HI GC GP GE) as [SS BT]. cbn [api].
    apply (served_short_goes o T g h c p e (Data f buf errs n d c p e uv) ShortsStatus); auto.
    apply (short_served o buf T _ (do_dataf f o c (repeat fzero 160) errs n d (h c, h p, h e) uv t)); [exact LB|exact (dataf_served f o c _ errs n d _ uv t T HX (repeat_length _ _) Hn Hd SS TH RT BT)|].
    destruct f; [apply short_imbe_data|apply short_ambe2450_data|apply short_ambe2400_data]; exact zeros160.
  - destruct WC as (LB & HF & HD). destruct WF as (_ & GC & GP & GE). destruct (ready_state T g h c p e HI GC GP GE) as [SS BT]. cbn [api].
    apply (same_bind (do_framef f o c buf fr d (h c, h p, h e) uv t) (fun r => FrameFloats (fo_aout r) (fo_errs r) (fo_errs2 r) (fo_str r) (fo_fr r) (fo_d r))).
    apply (served_goes o T g h c p e (Framef f buf fr d c p e uv) f32 (fun _ _ => Nothing)); auto. exact (framef_served f o c buf fr d _ uv t T HX LB HF HD SS TH RT BT).
  - destruct WC as (LB & HF & HD). destruct WF as (_ & GC & GP & GE). destruct (ready_state T g h c p e HI GC GP GE) as [SS BT]. cbn [api].
    apply (same_bind (do_frame f o c buf fr d (h c, h p, h e) uv t) (fun r => FrameShorts (fo_aout r) (fo_errs r) (fo_errs2 r) (fo_str r) (fo_fr r) (fo_d r))).
    apply (served_short_goes o T g h c p e (Frame f buf fr d c p e uv) (fun _ _ => Nothing)); auto.
    apply (short_served o buf T _ (framed (do_framef f o c (repeat fzero 160) fr d (h c, h p, h e) uv t))); [exact LB|exact (framef_served f o c _ fr d _ uv t T HX (repeat_length _ _) HF HD SS TH RT BT)|].
    apply framed_pair. destruct f; [apply short_imbe7200|apply short_imbe7100|apply short_ambe3600x2450|apply short_ambe3600x2400]; exact zeros160.
  - left. do 3 eexists. split; [reflexivity|]. split; [exact HI6|apply seed_thread].
  - destruct (comfort_ok buf t WC TH) as (b & t' & E & _ & T1 & _). cbn [api]. rewrite E. left. do 3 eexists. split; [reflexivity|]. auto.
  - pose proof (short_comfort o buf t _ zeros160) as E. destruct (comfort_ok (repeat fzero 160) t (repeat_length _ _) TH) as (b & t' & E2 & LB & T1 & _). rewrite E2 in E.
    destruct (comfort_short_bounded o buf t WC) as (s & t2 & E3 & _). cbn [api]. rewrite E3. left. cbn [bind]. do 3 eexists. split; [reflexivity|]. split; [exact HI6|].
    rewrite E3 in E. unfold then_short in E. destruct (mbe_floattoshort o b buf); [injection E as _ ->; exact T1|discriminate E].
Qed.

Lemma run_safe_gen : forall o s g h T0 T w, good_exp2 o R2400 -> inv T g h -> (forall i, thread_ok (T0 i)) -> 20480 <= T -> T + 6000 * Z.of_nat (length s) <= 2147483647 -> careful g s -> run o s h T0 = UB w ->
  exists s1 i k s2 x h1 T1, s = s1 ++ (i, k) :: s2 /\ run o s1 h T0 = Ok (x, h1, T1) /\ api o k h1 (T1 i) = UB w /\ excused o h1 k w.
Proof.
  intros o. induction s as [|[i k] s IH]; intros g h T0 T w HX HI HT HL HN HC H; [discriminate H|]. cbn [careful length] in *. rewrite Nat2Z.inj_succ in HN. destruct HC as (WC & WF & HC). cbn [run] in H.
  destruct (api_safe o k g h (T0 i) T HX HI (HT i) ltac:(split; lia) WC WF) as [(x & h' & t' & E & HI' & TH')|(w' & E & EX)].
  - rewrite E in H. cbn [bind] in H. destruct (run o s h' (fun j => if Nat.eqb j i then t' else T0 j)) as [[[xs h2] T2]|w2] eqn:ER; [discriminate H|]. cbn [bind] in H. injection H as ->.
    destruct (IH (after_call k g) h' (fun j => if Nat.eqb j i then t' else T0 j) (T + 6000) w HX HI') as (s1 & i1 & k1 & s2 & y & h1 & T1 & -> & R1 & A1 & X1); [intros j; destruct (Nat.eqb j i); auto|lia|lia|exact HC|exact ER|].
    exists ((i, k) :: s1), i1, k1, s2, ((i, x) :: y), h1, T1. split; [reflexivity|]. split; [cbn [run]; rewrite E; cbn [bind]; rewrite R1; reflexivity|]. auto.
  - rewrite E in H. cbn [bind] in H. injection H as ->. exists [], i, k, s, [], h, T0. split; [reflexivity|]. split; [reflexivity|]. auto.
Qed.
Lemma run_safe : forall o s h T w, good_exp2 o R2400 -> (forall a, wf_parms (h a)) -> (forall i, thread_ok (T i)) -> careful (fun _ => Raw) s -> Z.of_nat (length s) <= 357000 -> run o s h T = UB w ->
  exists s1 i k s2 x h1 T1, s = s1 ++ (i, k) :: s2 /\ run o s1 h T = Ok (x, h1, T1) /\ api o k h1 (T1 i) = UB w /\ excused o h1 k w.
Proof. intros o s h T w HX HW HT HC HN H. apply (run_safe_gen o s (fun _ => Raw) h T 20480 w HX); auto; lia. Qed.
