(* The loud AMBE stream and the 16-bit entry point; a library that is accurate. *)
From Coq Require Import ZArith Reals Lra Lia List Bool.
From Verif Require Import Res F32 MParms MAdaptive MUnvoiced MSynth MFrame MAmbe SpecFrame SpecState SpecMachine SpecAmbeMachine SpecBound SpecTrig SpecLoud SpecLoud2 SpecNum2
  PFloat PFloat2 PReal PDec PFftF32 PExp2 POut PIdeal PSpeech PStream PAmbeMachine PAmbeStream PLoud6 PLoud8 PLoud9 PNum10 PNum12.
From Flocq Require Import Core.Core.
Import ListNotations.
Local Open Scope Z_scope.

Lemma ideal_accurate2 : accurate_library2 ideal.
Proof.
  split; [exact ideal_accurate|]. split.
  - intros x _ _. destruct (ideal_trig x) as (_ & _ & H & _). lra.
  - intros L HL. change (log2f ideal (f_of_Z L)) with (f_canon (fl (ln (R_of (f_of_Z L)) / ln 2))). rewrite canon_id by apply fl_vf.
    destruct (of_Z_R L) as [_ EL]; [lia|]. rewrite EL. assert (L2 : (0 < ln 2)%R) by (rewrite <- ln_1; apply ln_increasing; lra).
    assert (L1 : (9 <= IZR L <= 56)%R) by (split; apply IZR_le; lia).
    assert (LO : (0 <= ln (IZR L))%R). { rewrite <- ln_1. apply Rlt_le, ln_increasing; lra. }
    assert (HI : (ln (IZR L) <= 6 * ln 2)%R). { replace (6 * ln 2)%R with (ln (2 ^ 6)) by (rewrite ln_pow by lra; cbn; lra). apply Rlt_le, ln_increasing; lra. }
    assert (Q : (0 <= ln (IZR L) / ln 2 <= 6)%R). { split; apply (Rmult_le_reg_r (ln 2)); auto; unfold Rdiv; rewrite Rmult_assoc, Rinv_l by lra; lra. }
    destruct (fl_R (ln (IZR L) / ln 2)) as [F E]; [apply in_max; unfold huge; rewrite Rabs_pos_eq; lra|]. split; [exact F|]. rewrite E.
    apply Rle_trans with (/ 2097152)%R; [apply rnd_err; rewrite Rabs_pos_eq; lra|lra].
Qed.
(* from frame 13 on every sample is NaN, and no frame is marked *)
Definition spoiled2 (n : nat) (r : list (list f32 * list Z)) : Prop :=
  forall i b s, nth_error r i = Some (b, s) -> s = [0] /\ ((13 <= i + 1 + n)%nat -> b = repeat S754_nan 160).
Lemma loud_stream_nan2 : forall o a cs n st t, accurate_library2 o -> Forall loud_call2450 cs -> thread_ok t -> loud_state2 (grow2 n) (gain2 n) st ->
  exists r st' t', ambe_stream (do2450 o a) cs st t = Ok (r, st', t') /\ length r = length cs /\ spoiled2 n r /\ thread_ok t' /\ loud_state2 (grow2 (n + length cs)) (gain2 (n + length cs)) st'.
Proof.
  intros o a cs n st t A. revert n st t. induction cs as [|c cs IH]; intros n st t F TH LS; cbn [ambe_stream].
  - exists [], st, t. split; [reflexivity|]. split; [reflexivity|]. split; [intros i b s H; destruct i; discriminate H|]. split; [exact TH|]. cbn [length]. rewrite Nat.add_0_r. exact LS.
  - inversion F as [|y ys F1 F2]; subst. destruct (loud_step2 o A a c st t _ _ F1 TH LS) as (b & st1 & t1 & D & T1 & L1 & N1). rewrite D. cbn [bind].
    destruct (IH (S n) st1 t1 F2 T1 L1) as (r & st2 & t2 & E & LR & SP & T2 & L2). rewrite E. cbn [bind]. exists ((b, [0]) :: r), st2, t2. split; [reflexivity|]. split; [cbn; lia|].
    split; [|split; [exact T2|]].
    + intros i b' s' H. destruct i as [|i]; cbn [nth_error] in H.
      * injection H as <- <-. split; [reflexivity|]. intros K. apply N1. apply (loud_13 (S n)). lia.
      * destruct (SP i b' s' H) as [Q1 Q2]. split; [exact Q1|]. intros K. apply Q2. lia.
    + cbn [length]. replace (n + S (length cs))%nat with (S n + length cs)%nat by lia. exact L2.
Qed.
Lemma begin_stream : forall o a c cs st s0 t, sane_state st -> begin st = s0 -> ambe_stream (do2450 o a) (c :: cs) st t = ambe_stream (do2450 o a) (c :: cs) s0 t.
Proof. intros o a c cs st s0 t SS <-. exact (stream_begin o R2450 a c cs st t SS). Qed.
Lemma begin_start : begin start = start_ambe.
Proof. apply begin_case. Qed.
Lemma loud_begin : forall o a cs st t, cs <> [] -> st = start \/ st = start_ambe -> ambe_stream (do2450 o a) cs st t = ambe_stream (do2450 o a) cs start_ambe t.
Proof.
  intros o a cs st t N [H|H]; [|rewrite H; reflexivity]. destruct cs as [|c cs]; [contradiction|]. rewrite H. exact (begin_stream o a c cs start start_ambe t sane_start begin_start).
Qed.
Lemma loud_frames2 : forall o a cs st t, accurate_library2 o -> Forall loud_call2450 cs -> st = start \/ st = start_ambe -> thread_ok t ->
  exists r st' t', ambe_stream (do2450 o a) cs st t = Ok (r, st', t') /\ length r = length cs /\ Forall (fun x => snd x = [0]) r /\
  forall i, (12 <= i < length cs)%nat -> nth_error r i = Some (repeat S754_nan 160, [0]).
Proof.
  intros o a cs st t A F HS TH. destruct cs as [|c cs]; [exists [], st, t; cbn; repeat split; [constructor|lia]|]. rewrite loud_begin by (exact HS || discriminate).
  destruct (loud_stream_nan2 o a (c :: cs) 0 start_ambe t A F TH loud_start2) as (r & st1 & t' & E & LR & SP & _). exists r, st1, t'. split; [exact E|]. split; [exact LR|]. split.
  - apply Forall_forall. intros [b s] I. apply In_nth_error in I as [i I]. exact (proj1 (SP i b s I)).
  - intros i Hi. destruct (nth_error r i) as [[b s]|] eqn:N; [|apply nth_error_None in N; lia]. destruct (SP i b s N) as [-> Q]. rewrite Q by lia. reflexivity.
Qed.
Lemma loud_short2 : forall o a cs st t r st1 t1 uv errs, accurate_library2 o -> Forall loud_call2450 cs -> (12 <= length cs)%nat -> st = start \/ st = start_ambe -> thread_ok t -> ambe_stream (do2450 o a) cs st t = Ok (r, st1, t1) ->
  forall aout, length aout = 160%nat -> match o_simd o with
  | Scalar => exists w, mbe_processAmbe2450Data o a aout errs 0 loud_bits2450 st1 uv t1 = UB w
  | Sse2 => exists str st2 t2, mbe_processAmbe2450Data o a aout errs 0 loud_bits2450 st1 uv t1 = Ok (repeat (-31128) 160, str, st2, t2)
  | Neon => exists str st2 t2, mbe_processAmbe2450Data o a aout errs 0 loud_bits2450 st1 uv t1 = Ok (repeat 0 160, str, st2, t2)
  end.
Proof.
  intros o a cs st t r st1 t1 uv errs A F L HS TH H aout LA. rewrite loud_begin in H; [|intros ->; cbn in L; lia|exact HS].
  destruct (loud_stream_nan2 o a cs 0 start_ambe t A F TH loud_start2) as (r1 & st2 & t2 & E & _ & _ & T1 & S1).
  rewrite E in H. injection H as <- <- <-. cbn [Nat.add] in S1.
  set (q := mkambe_call loud_bits2450 0 0 false uv (repeat fzero 160)). assert (Q : loud_call2450 q) by (repeat split; reflexivity).
  destruct (loud_step2 o A a q st2 t2 _ _ Q T1 S1) as (b & st3 & t3 & D & _ & _ & N). unfold mbe_processAmbe2450Data, mbe_processAmbe2450Dataf.
  unfold do2450, q in D. cbn [ac_bits ac_errors ac_c0 ac_known ac_uv ac_buf] in D. rewrite D. cbn [bind].
  assert (B : b = repeat S754_nan 160) by (apply N, (loud_13 (S (length cs))); lia).
  rewrite B. pose proof (convert_nan o aout LA) as W. destruct (o_simd o); [destruct W as [w W]; rewrite W; exists w; reflexivity|rewrite W; cbn [bind]; eauto..].
Qed.
Lemma loud_witness2 : exists c, ambe_ok c /\ kind_of c = Voice /\ ac_errors c = 0 /\ forall o a st t, accurate_library2 o -> st = start \/ st = start_ambe -> thread_ok t ->
  exists r st' t', ambe_stream (do2450 o a) (repeat c 13) st t = Ok (r, st', t') /\ nth_error r 12 = Some (repeat S754_nan 160, [0]).
Proof.
  exists (mkambe_call loud_bits2450 0 0 false 3 (repeat (S754_zero false) 160)). set (c := mkambe_call _ _ _ _ _ _). assert (Q : loud_call2450 c) by (repeat split; reflexivity).
  split; [apply loud2450_ok, Q|]. split; [apply (loud2450_kind c Q)|]. split; [reflexivity|]. intros o a st t A HS TH. destruct (loud_frames2 o a (repeat c 13) st t A) as (r & st1 & t' & E & _ & _ & N); [apply Forall_forall; intros x I; apply repeat_spec in I; subst; exact Q|exact HS|exact TH|].
  exists r, st1, t'. split; [exact E|]. apply N. rewrite repeat_length. lia.
Qed.
