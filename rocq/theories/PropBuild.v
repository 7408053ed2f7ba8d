(* C82: the scalar, SSE2 and NEON builds compute the same thing up to rounding. *)
From Coq Require Import ZArith Reals Lra Lia List Bool.
From Verif Require Import Res F32 MParms MSse MUnvoiced MSynth MFft MAdaptive SpecOut SpecState SpecAmp SpecSynth SpecTrig SpecFftErr SpecNum SpecBuild
  PFloat PBase PState PStream PFftErr PIdeal PNum6 PNum8 PBuild PBuild2.
Import ListNotations.
Local Open Scope R_scope.

(* C82: the sums of enhancement, in every build, are the exact energies to a fifty thousandth *)
Theorem C82_energy : forall simd L Ml, (0 <= L <= 56)%Z -> length Ml = 57%nat -> amplitudes_under 1e16 L Ml ->
  exists e, enh_sum simd L Ml = Ok e /\ agrees e (exact_energy L Ml) (exact_energy L Ml).
Proof. exact energy_both. Qed.
Print Assumptions C82_energy.
Theorem C82_moments : forall simd L Ml tab (c : Z -> f32), (0 <= L <= 56)%Z -> length Ml = 57%nat -> amplitudes_under 1e16 L Ml ->
  (forall l, (1 <= l <= L)%Z -> rdi tab l = Ok (c l) /\ ff (c l) /\ Rabs (R_of (c l)) <= 1.2) ->
  exists r0 r1, enh_energies simd L Ml tab = Ok (r0, r1) /\ agrees r0 (exact_energy L Ml) (exact_energy L Ml) /\
    agrees r1 (exact_weighted L Ml (fun l => R_of (c l))) (1.2 * exact_energy L Ml).
Proof. exact moments_both. Qed.
Print Assumptions C82_moments.
(* C82: so is the power of a band of the noise *)
Theorem C82_power : forall simd x a b, length x = 256%nat -> Forall (sized 1e15) x -> (0 <= a)%Z -> (b <= 128)%Z ->
  exists p, mbe_magnitude_squared_sum simd x a b = Ok p /\ agrees p (exact_band x a b) (exact_band x a b).
Proof. exact power_both. Qed.
Print Assumptions C82_power.
(* C82: and the gain of a band is the exact gain to a fifty thousandth, unless the power is within 1 % of the threshold *)
Theorem C82_gain : forall simd x cur, Forall (sized 1e15) x -> length x = 256%nat -> wf_parms cur -> (0 <= p_L cur <= 56)%Z -> ff (p_w0 cur) -> 0 <= R_of (p_w0 cur) <= 1000 ->
  exists lo hi s, band_edges (p_L cur) (p_w0 cur) = Ok (lo, hi) /\ bin_scalors simd (p_L cur) (p_Vl cur) (p_Ml cur) x lo hi = Ok s /\ length s = 129%nat /\
  forall l bin, (1 <= l <= p_L cur)%Z -> (band_low cur l <= bin < band_high cur l)%Z -> ff (cell zero (p_Ml cur) l) -> 0 <= R_of (cell zero (p_Ml cur) l) <= 1e12 ->
    let p := exact_band x (band_low cur l) (band_high cur l) in
    (cell 0%Z (p_Vl cur) l <> 0%Z \/ p <= 0.99e-10 -> cell zero s bin = zero) /\
    (cell 0%Z (p_Vl cur) l = 0%Z -> 1.01e-10 <= p -> let g := exact_gain (cell zero (p_Ml cur) l) p (band_high cur l - band_low cur l) in
       ff (cell zero s bin) /\ Rabs (R_of (cell zero s bin) - g) <= g / 50000 + 1e-30).
Proof. exact gains_both. Qed.
Print Assumptions C82_gain.
(* C82: the voiced samples of all builds, the loop over the harmonics, approximate the same exact sum *)
Theorem C82_voiced : forall o, accurate_angles o -> forall b, 1 <= b <= 1e12 -> forall simd cur prev, wf_parms cur -> wf_parms prev ->
  (0 <= Z.max (p_L cur) (p_L prev) <= 56)%Z -> numeric cur -> numeric prev ->
  (forall l, (1 <= l <= Z.max (p_L cur) (p_L prev))%Z -> sized b (cell zero (p_Ml cur) l) /\ sized b (cell zero (p_Ml prev) l)) ->
  exists out, for_up 1 (Z.max (p_L cur) (p_L prev) + 1) (add_harmonic (in_build simd o) (p_w0 cur) (p_w0 prev) cur prev) (repeat zero 160) = Ok out /\ length out = 160%nat /\
    forall n, (n < 160)%nat -> agrees (nth n out zero) (exact_voiced o cur prev n) (392 * b).
Proof. exact voiced_loop. Qed.
Print Assumptions C82_voiced.
(* C82: the scaling loops give the same in all builds, bit for bit *)
Theorem C82_same : forall simd, (forall L gamma Ml, (0 <= L < Z.of_nat (length Ml))%Z -> enh_scale simd L gamma Ml = enh_scale Scalar L gamma Ml) /\
  (forall scale u, length u = 256%nat -> normalize simd scale u = normalize Scalar scale u).
Proof. exact same_parts. Qed.
Print Assumptions C82_same.
(* C82: a frame of voiced bands: any two builds leave the same state, and their samples differ by at most a fiftieth of the largest amplitude *)
Theorem C82_speech : forall o, accurate_angles o -> bounded_transforms o -> forall b, 1 <= b <= 1e12 -> forall s1 s2 aout a cur prev uvq t,
  wf_parms cur -> wf_parms prev -> (1 <= p_L cur <= 56)%Z -> (0 <= p_L prev <= 56)%Z -> generator_seed (p_noiseSeed cur) ->
  length aout = 160%nat -> (0 <= p_errorCountTotal cur <= 20)%Z -> (p_amplitudeThreshold prev <= 2000000000)%Z ->
  amplitudes_to b cur -> amplitudes_to b prev -> numeric cur -> numeric prev -> Forall (sized (5000 * b)) (p_previousUw prev) -> all_voiced cur ->
  exists s s' cur' prev' t', mbe_synthesizeSpeechf (in_build s1 o) aout a cur prev uvq t = Ok (s, cur', prev', t') /\
    mbe_synthesizeSpeechf (in_build s2 o) aout a cur prev uvq t = Ok (s', cur', prev', t') /\ Forall2 (fun x y => Rabs (R_of x - R_of y) <= b / 50) s s'.
Proof. exact speech_both. Qed.
Print Assumptions C82_speech.
(* the orders of addition do not give the same: 2^24 + 1 + 1 + 1 + 1 one after the other and in four lanes, and
   2^24 + 0 + 1 + 1 in the three builds; nor do the orders of multiplication *)
Definition steps : list f32 := zero :: f_of_Z 4096 :: repeat (f_of_Z 1) 55.
Definition gap : list f32 := zero :: f_of_Z 4096 :: zero :: repeat (f_of_Z 1) 54.
Example C82_orders : enh_sum Scalar 5 steps = Ok (f_of_Z 16777216) /\ enh_sum Sse2 5 steps = Ok (f_of_Z 16777220) /\
  map (fun s => enh_sum s 4 gap) [Scalar; Sse2; Neon] = map (fun n => Ok (f_of_Z n)) [16777216; 16777218; 16777216]%Z /\
  voiced_term Sse2 (flit 3 100) (flit 23 100) (flit 37 100) <> voiced_term Scalar (flit 3 100) (flit 23 100) (flit 37 100).
Proof. split; [vm_compute; reflexivity|]. split; [vm_compute; reflexivity|]. split; [vm_compute; reflexivity|]. vm_compute. discriminate. Qed.
(* the initial set with all bands voiced satisfies the conditions, with the modelled transforms *)
Definition voiced_initial : parms := set_Vl (repeat 1%Z 57) imbe_initial.
Example C82_case : forall a t uvq, let o := with_pffft (grid cos) (grid sin) ideal in
  exists s s' cur' prev' t', mbe_synthesizeSpeechf (in_build Sse2 o) (repeat zero 160) a voiced_initial imbe_initial uvq t = Ok (s, cur', prev', t') /\
    mbe_synthesizeSpeechf (in_build Neon o) (repeat zero 160) a voiced_initial imbe_initial uvq t = Ok (s', cur', prev', t') /\ Forall2 (fun x y => Rabs (R_of x - R_of y) <= 1 / 50) s s'.
Proof.
  intros a t uvq o. destruct initial_fine as (_ & _ & N).
  assert (AM : amplitudes_to 1 imbe_initial).
  { intros l Hl. change (p_L imbe_initial) with 39%Z in Hl. assert (K : cell zero (p_Ml imbe_initial) l = f_of_Z 1). { unfold cell. change (p_Ml imbe_initial) with (repeat (f_of_Z 1) 57). apply (repeat_spec 57). apply nth_In. rewrite repeat_length. lia. }
    rewrite K. split; [split; reflexivity|]. replace (R_of (f_of_Z 1)) with 1; [lra|]. symmetry. apply (of_Z_R 1). lia. }
  assert (SD : generator_seed (p_noiseSeed voiced_initial)) by (left; reflexivity).
  assert (AC : amplitudes_to 1 voiced_initial) by (exact AM). assert (NC : numeric voiced_initial) by (exact N).
  assert (UP : Forall (sized (5000 * 1)) (p_previousUw imbe_initial)). { apply Forall_forall. intros x Hx. change (p_previousUw imbe_initial) with (repeat zero 256) in Hx. apply repeat_spec in Hx. rewrite Hx. split; [split; reflexivity|]. change (R_of zero) with 0. rewrite Rabs_R0. lra. }
  assert (AV : all_voiced voiced_initial).
  { intros l Hl. change (p_L voiced_initial) with 39%Z in Hl. unfold cell. change (p_Vl voiced_initial) with (repeat 1%Z 57). assert (K : nth (Z.to_nat l) (repeat 1%Z 57) 0%Z = 1%Z). { apply (repeat_spec 57). apply nth_In. rewrite repeat_length. lia. } rewrite K. discriminate. }
  assert (WI : wf_parms voiced_initial) by (repeat split; reflexivity).
  assert (LI : (1 <= p_L voiced_initial <= 56)%Z) by (change (p_L voiced_initial) with 39%Z; lia). assert (LP : (0 <= p_L imbe_initial <= 56)%Z) by (change (p_L imbe_initial) with 39%Z; lia).
  assert (EI : (0 <= p_errorCountTotal voiced_initial <= 20)%Z) by (change (p_errorCountTotal voiced_initial) with 0%Z; lia). assert (TI : (p_amplitudeThreshold imbe_initial <= 2000000000)%Z) by (vm_compute; discriminate).
  exact (C82_speech o (ideal_angles (grid cos) (grid sin)) (pffft_bounded (grid cos) (grid sin) ideal grid_accurate) 1 ltac:(lra) Sse2 Neon (repeat zero 160) a voiced_initial imbe_initial uvq t WI imbe_initial_wf LI LP SD (repeat_length zero 160) EI TI AC AM NC N UP AV).
Qed.
(* bins of power 2 in a band of amplitude 1: the gain is 146.17696 / sqrt 2 = 103.36 *)
Definition gain_at (s : build) (bin : Z) : res Z :=
  '(lo, hi) <- band_edges (p_L imbe_initial) (p_w0 imbe_initial) ;;
  g <- bin_scalors s (p_L imbe_initial) (p_Vl imbe_initial) (p_Ml imbe_initial) (repeat (f_of_Z 1) 256) lo hi ;;
  x <- rd g bin ;; sf_to_int (fmul (f_of_Z 100) x).
Example C82_gain_case : map (fun s => gain_at s 60) [Scalar; Sse2; Neon] = repeat (Ok 10336%Z) 3 /\ p_Vl imbe_initial = repeat 0%Z 57 /\ p_Ml imbe_initial = repeat (f_of_Z 1) 57.
Proof. split; [vm_compute; reflexivity|]. split; reflexivity. Qed.
