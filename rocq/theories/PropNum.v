(* C75: from moderate amplitudes, every sample is a number. *)
From Coq Require Import ZArith Reals Lra Lia List Bool.
From Verif Require Import Res F32 MParms MUnvoiced MSynth MFrame MFft MAdaptive MImbe SpecOut SpecFrame SpecState SpecImbe SpecMachine SpecLoud SpecSynth SpecTrig SpecEnh2 SpecFftErr SpecNum
  PFloat PStream PFftErr PIdeal PLoud5 PNum3 PNum4 PNum5 PNum6 PNum7 PNum8.
Import ListNotations.
Local Open Scope R_scope.

(* C75: enhancement of moderate amplitudes gives numbers, not negative and at most 3.2 times as large, and keeps the energy to 1/100000 *)
Theorem C75_enhance : forall o m a t, accurate_angles o -> pitched m -> ff (p_w0 m) -> moderate m -> length (p_Ml m) = 57%nat ->
  exists m' t', mbe_spectralAmpEnhance o a m t = Ok (m', t') /\
  (forall l, (1 <= l <= p_L m)%Z -> ff (cell zero (p_Ml m') l) /\ 0 <= R_of (cell zero (p_Ml m') l) <= 3.2 * R_of (cell zero (p_Ml m) l) + 1e-30) /\
  Rabs (energy m' - energy m) <= energy m / 100000.
Proof. exact enhance_moderate. Qed.
Print Assumptions C75_enhance.
(* C75: speech synthesis of amplitudes up to 1e12 gives 160 numbers within the sample limit, and again such a state *)
Theorem C75_speech : forall o, accurate_angles o -> bounded_transforms o -> forall b, 1 <= b <= 1e12 -> forall aout a cur prev uvq t,
  wf_parms cur -> wf_parms prev -> (1 <= p_L cur <= 56)%Z -> (0 <= p_L prev <= 56)%Z -> generator_seed (p_noiseSeed cur) ->
  length aout = 160%nat -> (0 <= p_errorCountTotal cur <= 20)%Z -> (p_amplitudeThreshold prev <= 2000000000)%Z ->
  amplitudes_to b cur -> amplitudes_to b prev -> numeric cur -> numeric prev ->
  exists s cur' prev' t', mbe_synthesizeSpeechf o aout a cur prev uvq t = Ok (s, cur', prev', t') /\ length s = 160%nat /\ Forall number s /\
  numeric cur' /\ numeric prev' /\ amplitudes_to b cur' /\ amplitudes_to b prev'.
Proof. exact speech_numbers. Qed.
Print Assumptions C75_speech.
(* C75: a stream of IMBE frames with at most 20 errors each, from initialisation: if every parameter set it leaves is moderate, every sample is a number *)
Theorem C75_stream : forall o a cs t r st' t', accurate_angles o -> bounded_transforms o -> Forall call_ok cs -> Forall (fun c => ic_errors c <= 20)%Z cs -> thread_ok t ->
  (Z.of_nat (length cs) <= 333000)%Z ->
  (forall k r1 st1 t1, (1 <= k <= length cs)%nat -> imbe_stream o a (firstn k cs) start t = Ok (r1, st1, t1) -> moderate (prev_of st1)) ->
  imbe_stream o a cs start t = Ok (r, st', t') -> Forall (fun f => Forall number (fst f)) r.
Proof. exact moderate_from_start. Qed.
Print Assumptions C75_stream.
(* C75: the same from the bits alone: if the residual coded by every frame lies between lo and hi, with 3.335 hi - 2.335 lo at most 27.8 *)
Theorem C75_residuals : forall o lo hi a cs t, accurate_library o -> accurate_angles o -> bounded_transforms o -> tame lo hi -> thread_ok t ->
  Forall call_ok cs -> Forall few_harmonics cs -> Forall (fun c => ic_errors c <= 20)%Z cs -> Forall (fun c => residual_within o lo hi (ic_bits c)) cs -> (Z.of_nat (length cs) <= 333000)%Z ->
  exists r st' t', imbe_stream o a cs start t = Ok (r, st', t') /\ length r = length cs /\ Forall (fun f => length (fst f) = 160%nat /\ Forall number (fst f)) r.
Proof. exact tame_from_start. Qed.
Print Assumptions C75_residuals.
(* C75: numbers convert to 16 bits *)
Theorem C75_short : forall o s aout, length s = 160%nat -> length aout = 160%nat -> Forall number s -> mbe_floattoshort o s aout = Ok (map short_spec s).
Proof. exact number_shorts. Qed.
Print Assumptions C75_short.
(* C75: the transforms of the modelled PFFFT are bounded as required *)
Theorem C75_transforms : forall cosd sind o, accurate cosd sind -> bounded_transforms (with_pffft cosd sind o).
Proof. exact pffft_bounded. Qed.
Print Assumptions C75_transforms.
(* the modelled transforms with correctly rounded functions are such a library, the initial state is moderate and pitched, and a frame of 25 harmonics is tame *)
Definition library : oracle := with_pffft (grid cos) (grid sin) ideal.
Example C75_case : accurate_library library /\ accurate_angles library /\ bounded_transforms library /\ tame (-3) 6 /\ residual_within library (-3) 6 tame_bits /\
  imbe_harmonics (pitch7200 tame_bits) = 25%Z /\ call_ok (mkimbe_call tame_bits 0 0 true 3 (repeat zero 160)) /\ few_harmonics (mkimbe_call tame_bits 0 0 true 3 (repeat zero 160)) /\
  moderate imbe_initial /\ pitched imbe_initial /\ numeric imbe_initial.
Proof.
  split; [apply pffft_library|]. split; [apply ideal_angles|]. split; [apply pffft_bounded, grid_accurate|]. split; [exact tame_range|].
  split; [apply tame_frame, pffft_library|]. split; [exact tame_pitch|]. split; [exact tame_call|]. split; [left; vm_compute; reflexivity|]. exact initial_fine.
Qed.
(* so a thousand such frames give numbers *)
Example C75_run : forall a t, thread_ok t -> exists r st' t', imbe_stream library a (repeat (mkimbe_call tame_bits 0 0 true 3 (repeat zero 160)) 1000) start t = Ok (r, st', t') /\
  length r = length (repeat (mkimbe_call tame_bits 0 0 true 3 (repeat zero 160)) 1000) /\ Forall (fun f => length (fst f) = 160%nat /\ Forall number (fst f)) r.
Proof.
  intros a t TH. destruct C75_case as (A & B & C & D & E & _ & F & G & _).
  apply (C75_residuals library (-3) 6 a _ t A B C D TH); [| | | |rewrite repeat_length; lia]; apply Forall_forall; intros c Hc; apply repeat_spec in Hc; rewrite Hc; try assumption. cbn. lia.
Qed.
