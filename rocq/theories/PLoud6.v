(* The loud stream and the 16-bit entry point; a library that is accurate. *)
From Coq Require Import ZArith Reals Lra Lia List Bool.
From Verif Require Import Res F32 MParms MAdaptive MUnvoiced MSynth MFrame MImbe SpecFrame SpecState SpecMachine SpecBound SpecTrig SpecLoud PFloat POut PIdeal PLoud5.
Import ListNotations.
Local Open Scope Z_scope.

Lemma ideal_accurate : accurate_library ideal.
Proof.
  split; [exact ideal_unit|]. split; [exact ideal_powers|]. split.
  - intros x _ _. destruct (ideal_trig x) as (_ & _ & H & _). lra.
  - intros x _ H. destruct (ideal_exp2 x H) as [F E]. split; [exact F|]. assert (0 < Rpower 2 (R_of x))%R by apply exp_pos. lra.
Qed.
Lemma loud_frames : forall o a cs t, accurate_library o -> Forall loud_call cs -> thread_ok t ->
  exists r st' t', imbe_stream o a cs start t = Ok (r, st', t') /\ length r = length cs /\ Forall (fun x => snd x = [0]) r /\
  forall i, (7 <= i < length cs)%nat -> nth_error r i = Some (repeat S754_nan 160, [0]).
Proof.
  intros o a cs t A F TH. destruct (loud_stream_nan o A a cs 0 start t F TH loud_start) as (r & st & t' & E & LR & SP & _). exists r, st, t'. split; [exact E|]. split; [exact LR|]. split.
  - apply Forall_forall. intros [b s] I. apply In_nth_error in I as [i I]. exact (proj1 (SP i b s I)).
  - intros i Hi. destruct (nth_error r i) as [[b s]|] eqn:N; [|apply nth_error_None in N; lia]. destruct (SP i b s N) as [-> Q]. rewrite Q by lia. reflexivity.
Qed.
Lemma loud_short : forall o a cs c t r st t', accurate_library o -> Forall loud_call cs -> (7 <= length cs)%nat -> thread_ok t -> imbe_stream o a cs start t = Ok (r, st, t') ->
  forall aout errs, c = loud_bits -> length aout = 160%nat -> match o_simd o with
  | Scalar => exists w, mbe_processImbe4400Data o a aout errs 0 c st 3 t' = UB w
  | Sse2 => exists str st2 t2, mbe_processImbe4400Data o a aout errs 0 c st 3 t' = Ok (repeat (-31128) 160, str, st2, t2)
  | Neon => exists str st2 t2, mbe_processImbe4400Data o a aout errs 0 c st 3 t' = Ok (repeat 0 160, str, st2, t2)
  end.
Proof.
  intros o a cs c t r st t' A F L TH H aout errs -> LA. destruct (loud_stream_nan o A a cs 0 start t F TH loud_start) as (r1 & st1 & t1 & E & _ & _ & T1 & S1).
  rewrite E in H. injection H as <- <- <-. cbn [Nat.add] in S1.
  set (q := mkimbe_call loud_bits 0 0 false 3 (repeat fzero 160)). assert (Q : loud_call q) by (repeat split; reflexivity).
  destruct (loud_step o A a q st1 t1 _ Q T1 S1) as (b & st2 & t2 & D & _ & _ & N). unfold mbe_processImbe4400Data, mbe_processImbe4400Dataf.
  unfold imbe_do, q in D. cbn [ic_bits ic_errors ic_c0 ic_c0_known ic_uv ic_buf] in D. rewrite D. cbn [bind].
  assert (B : b = repeat S754_nan 160). { apply N. change (23.92 <= grow (S (length cs)))%R. apply grow_8. lia. }
  rewrite B. pose proof (convert_nan o aout LA) as W. destruct (o_simd o); [destruct W as [w W]; rewrite W; exists w; reflexivity|rewrite W; cbn [bind]; eauto..].
Qed.
Lemma loud_witness : exists c, call_ok c /\ ic_errors c = 0 /\ forall o a t, accurate_library o -> thread_ok t ->
  exists r st' t', imbe_stream o a (repeat c 8) start t = Ok (r, st', t') /\ nth_error r 7 = Some (repeat S754_nan 160, [0]).
Proof.
  exists (mkimbe_call loud_bits 0 0 false 3 (repeat (S754_zero false) 160)). set (c := mkimbe_call _ _ _ _ _ _). assert (Q : loud_call c) by (repeat split; reflexivity).
  split; [apply loud_ok, Q|]. split; [reflexivity|]. intros o a t A TH. destruct (loud_frames o a (repeat c 8) t A) as (r & st & t' & E & _ & _ & N); [apply Forall_forall; intros x I; apply repeat_spec in I; subst; exact Q|exact TH|].
  exists r, st, t'. split; [exact E|]. apply N. rewrite repeat_length. lia.
Qed.
