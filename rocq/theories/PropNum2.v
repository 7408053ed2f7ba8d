(* C77: from moderate amplitudes, every sample of an AMBE stream is a number. *)
From Coq Require Import ZArith Reals Lra Lia List Bool.
From Verif Require Import Res F32 MParms MFft MAmbe SpecEcc SpecFrame SpecState SpecAmbe SpecMachine SpecAmbeMachine SpecBound SpecLoud SpecTrig SpecEnh2 SpecFftErr SpecNum SpecNum2
  PFloat PFftErr PIdeal PMachine PStream PAmbeMachine PAmbeStream PNum6 PNum8 PNum9 PNum10 PNum11 PNum12 PNum13.
Import ListNotations.
Local Open Scope R_scope.

(* C77: the fundamentals of decoded voice frames are at least 0.049, and no harmonic is at a multiple of half the sampling rate *)
Theorem C77_pitch2450 : forall o d cur prev e bad cur' prev', is_bits 49 d -> length (p_Vl cur) = 57%nat -> ~ (tone2450 d /\ (e < 6)%Z) -> ~ erasure2450 (pitch2450 d) ->
  mbe_decodeAmbe2450ParmsInternal o d cur prev e = Ok (bad, cur', prev') -> pitched cur' /\ ff (p_w0 cur').
Proof. exact decoded_pitch2450. Qed.
Print Assumptions C77_pitch2450.
Theorem C77_pitch2400 : forall o d cur prev bad cur' prev', is_bits 49 d -> length (p_Vl cur) = 57%nat -> (pitch2400 d < 126)%Z -> fine_exp2 o R2400 ->
  mbe_decodeAmbe2400Parms o d cur prev = Ok (bad, cur', prev') -> pitched cur' /\ ff (p_w0 cur').
Proof. exact decoded_pitch2400. Qed.
Print Assumptions C77_pitch2400.
(* C77: a stream of AMBE frames with at most 20 errors each, from initialisation, no concealed voice frame directly after an erasure: if every parameter set it leaves is moderate, every sample is a number of size at most 4448 *)
Theorem C77_stream : forall o, accurate_angles o -> bounded_transforms o -> forall r a cs st t s st' t', fine_exp2 o r -> heard r cs -> Forall ambe_ok cs -> Forall (fun c => ac_errors c <= 20)%Z cs -> st = start \/ st = start_ambe -> thread_ok t -> (Z.of_nat (length cs) <= 300000)%Z ->
  (forall k r1 st1 t1, (1 <= k <= length cs)%nat -> ambe_stream (do_ambe r o a) (firstn k cs) st t = Ok (r1, st1, t1) -> moderate (prev_of st1)) ->
  ambe_stream (do_ambe r o a) cs st t = Ok (s, st', t') -> Forall (fun f => Forall audible (fst f)) s.
Proof. exact ambe_numbers. Qed.
Print Assumptions C77_stream.
(* C77: the same from the bits alone: gain steps of at most g and residuals between lo and hi, with 2 g + 2.8573 (hi - lo) at most 29.2 *)
Theorem C77_residuals : forall o lo hi g r a cs st t, accurate_library o -> log2_three_six o -> fine_exp2 o r -> accurate_angles o -> bounded_transforms o -> ambe_tame lo hi g ->
  Forall ambe_ok cs -> Forall (few_bands r) cs -> heard r cs -> Forall (fun c => ac_errors c <= 20)%Z cs -> Forall (ambe_within o r lo hi g) cs -> st = start \/ st = start_ambe -> thread_ok t -> (Z.of_nat (length cs) <= 300000)%Z ->
  exists s st' t', ambe_stream (do_ambe r o a) cs st t = Ok (s, st', t') /\ Forall (fun f => Forall audible (fst f)) s.
Proof. exact tame_ambe. Qed.
Print Assumptions C77_residuals.
(* C41, the part that holds: in such a stream no amplitude of a band present in any of the three sets is NaN or infinite.  Missing of the
   full statement: streams with a concealed frame after an erasure (C41_refuted), with more than 20 errors in a frame or with louder frames *)
Theorem C41_partial : forall o lo hi g r a cs st t, accurate_library o -> log2_three_six o -> fine_exp2 o r -> accurate_angles o -> bounded_transforms o -> ambe_tame lo hi g ->
  Forall ambe_ok cs -> Forall (few_bands r) cs -> heard r cs -> Forall (fun c => ac_errors c <= 20)%Z cs -> Forall (ambe_within o r lo hi g) cs -> st = start \/ st = start_ambe -> thread_ok t -> (1 <= Z.of_nat (length cs) <= 300000)%Z ->
  exists s st' t', ambe_stream (do_ambe r o a) cs st t = Ok (s, st', t') /\ amplitudes_to 1e9 (cur_of st') /\ amplitudes_to 1e9 (prev_of st') /\ amplitudes_to 1e9 (enh_of st').
Proof. exact tame_amplitudes. Qed.
Print Assumptions C41_partial.
(* the modelled transforms with correctly rounded functions are such a library, and a frame of small codebook entries is tame *)
Definition library : oracle := with_pffft (grid cos) (grid sin) ideal.
Example C77_case : accurate_library library /\ log2_three_six library /\ (forall r, fine_exp2 library r) /\ accurate_angles library /\ bounded_transforms library /\ ambe_tame (-1.94) 1.94 4 /\
  (forall r n, ambe_within library r (-1.94) 1.94 4 (example r n)) /\ is_voice R2450 (example R2450 0) /\ is_voice R2400 (example R2400 0) /\ needs R2450 (example R2450 9) = true /\ needs R2450 (example R2450 0) = false.
Proof.
  split; [apply pffft_library|]. split; [apply ideal_log2|]. split; [apply ideal_fine|]. split; [apply ideal_angles|]. split; [apply pffft_bounded, grid_accurate|]. split; [exact example_tame|].
  split; [intros r n; apply example_within, pffft_library|]. repeat split; vm_compute; reflexivity.
Qed.
(* so a thousand such 2400 frames give numbers *)
Example C77_run2400 : forall a t, thread_ok t -> exists s st' t', ambe_stream (do2400 library a) (repeat (example R2400 0) 1000) start_ambe t = Ok (s, st', t') /\ Forall (fun f => Forall audible (fst f)) s.
Proof.
  intros a t TH. destruct C77_case as (A & B & C & D & E & F & G & _). destruct (example_ok R2400 0 ltac:(lia)) as (K1 & K2 & K3).
  apply (C77_residuals library (-1.94) 1.94 4 R2400 a _ start_ambe t A B (C R2400) D E F); [| |exact I| | |right; reflexivity|exact TH|rewrite repeat_length; lia]; apply Forall_forall; intros c Hc; apply repeat_spec in Hc; rewrite Hc; auto.
Qed.
(* and so do 2450 frames of voice, a frame with nine errors, a tone, an erasure and again voice *)
Example C77_run2450 : forall a t, thread_ok t -> exists s st' t', ambe_stream (do2450 library a) [example R2450 0; example R2450 9; digit; erasing; example R2450 0] start_ambe t = Ok (s, st', t') /\ Forall (fun f => Forall audible (fst f)) s.
Proof.
  intros a t TH. destruct C77_case as (A & B & C & D & E & F & G & _). destruct (example_ok R2450 0 ltac:(lia)) as (K1 & K2 & K3). destruct (example_ok R2450 9 ltac:(lia)) as (M1 & M2 & M3).
  assert (KD : kind_of digit = Tone (133600, 77000)%Z) by (vm_compute; reflexivity). assert (KE : kind_of erasing = Erasure) by (vm_compute; reflexivity).
  assert (K0 : kind_of (example R2450 0) = Voice) by (vm_compute; reflexivity). assert (K9 : kind_of (example R2450 9) = Voice) by (vm_compute; reflexivity).
  apply (C77_residuals library (-1.94) 1.94 4 R2450 a _ start_ambe t A B (C R2450) D E F); [| | | | |right; reflexivity|exact TH|cbn; lia].
  - repeat (constructor; [first [exact K1|exact M1|apply digit_ok|apply erasing_ok]|]). constructor.
  - repeat (constructor; [first [exact K2|exact M2|intros V; cbn [is_voice] in V; congruence]|]). constructor.
  - cbn [heard no_gap]. rewrite K0, K9, KD, KE. repeat split; discriminate.
  - repeat (constructor; [cbn; lia|]). constructor.
  - repeat (constructor; [first [apply G|intros V; cbn [is_voice] in V; congruence]|]). constructor.
Qed.
