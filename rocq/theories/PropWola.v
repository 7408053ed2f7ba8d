(* C42, C43, C44, C53: overlap-add window, overlap-add, noise bands, stored phases. *)
From Coq Require Import ZArith List Bool Reals.
From Verif Require Import Res F32 MParms MAdaptive MUnvoiced MSynth SpecState SpecAdaptive SpecWola PWola PSpeech.
From Flocq Require Import Core.Core IEEE754.BinarySingleNaN.
Import ListNotations.
Local Open Scope Z_scope.

(* C42: the window is neither symmetric nor flat up to 55 *)
Theorem C42_symmetric_refuted : exists n, -105 <= n <= 105 /\ mbe_synthesisWindow n <> mbe_synthesisWindow (- n).
Proof. exact window_refuted. Qed.
Print Assumptions C42_symmetric_refuted.
Theorem C42_plateau_refuted : exists n, -55 <= n <= 55 /\ mbe_synthesisWindow n <> Ok (f_of_Z 1).
Proof. exact plateau_refuted. Qed.
Print Assumptions C42_plateau_refuted.
(* what holds instead; missing: symmetry for 55 <= |n| <= 89 *)
Theorem C42_formula_partial : forall n, mbe_synthesisWindow n = Ok (window n).
Proof. exact window_ok. Qed.
Print Assumptions C42_formula_partial.
Example C42_values : mbe_synthesisWindow 55 = Ok (flit 98 100) /\ mbe_synthesisWindow (-55) = Ok (f_of_Z 1) /\
  mbe_synthesisWindow 89 = Ok (flit 3 10) /\ mbe_synthesisWindow 90 = Ok (flit 3 10) /\ mbe_synthesisWindow 106 = Ok fzero.
Proof. vm_compute. repeat split. Qed.

(* C43 *)
Theorem C43_reference : forall out prev curr, length out = 160%nat -> length prev = 256%nat -> length curr = 256%nat ->
  mbe_wola_combine out prev curr 160 = Ok (overlap_add out prev curr).
Proof. exact combine_ref. Qed.
Print Assumptions C43_reference.
Theorem C43_fast : forall out prev curr, length out = 160%nat -> length prev = 256%nat -> length curr = 256%nat ->
  mbe_wola_combine_fast out prev curr = Ok (overlap_add out prev curr).
Proof. exact combine_fast. Qed.
Print Assumptions C43_fast.
Theorem C43_sse2 : forall out prev curr, length out = 160%nat -> length prev = 256%nat -> length curr = 256%nat ->
  mbe_wola_combine_vec out prev curr = Ok (overlap_add out prev curr).
Proof. exact combine_sse2. Qed.
Print Assumptions C43_sse2.
Theorem C43_normaliser : forall n, 0 <= n < 160 -> exists d, wola_denom n = Ok d /\ d = normaliser n /\ fgt d (flit 1 10000000000) = true.
Proof. exact denom_pos. Qed.
Print Assumptions C43_normaliser.
Example C43_case : nth 100 (overlap_add (repeat fone 160) (repeat (f_of_Z 2) 256) (repeat (f_of_Z 3) 256)) fzero = S754_finite false 9513910 (-21) /\
  nth 155 (overlap_add (repeat fone 160) (repeat (f_of_Z 2) 256) (repeat (f_of_Z 3) 256)) fzero = f_of_Z 4.
Proof. vm_compute. repeat split. Qed.

(* C44 *)
Theorem C44_edges : forall L w0, 0 <= L <= 56 -> pitch_in_range w0 -> exists lo hi, band_edges L w0 = Ok (lo, hi) /\
  forall l, 1 <= l <= L -> nth_error lo (Z.to_nat l) = Some (Some (band_edge w0 (l - 1))) /\
                           nth_error hi (Z.to_nat l) = Some (Some (Z.min 128 (band_edge w0 l))).
Proof. exact edges_spec. Qed.
Print Assumptions C44_edges.
(* the bands fill the bins from the first edge to the last, each bin in exactly one band *)
Theorem C44_tiling : forall L w0 lo hi, 0 <= L <= 56 -> pitch_in_range w0 -> band_edges L w0 = Ok (lo, hi) ->
  0 <= band_edge w0 0 /\
  (forall bin, (exists l, 1 <= l <= L /\ in_band lo hi l bin) <-> band_edge w0 0 <= bin < Z.min 128 (band_edge w0 L)) /\
  (forall bin l l', 1 <= l <= L -> 1 <= l' <= L -> in_band lo hi l bin -> in_band lo hi l' bin -> l = l').
Proof. exact edges_tile. Qed.
Print Assumptions C44_tiling.
(* every index into the transform is in range: the synthesis is defined *)
Theorem C44_defined : forall o out cur prev noise, wf_parms cur -> wf_parms prev -> 0 <= p_L cur <= 56 -> pitch_in_range (p_w0 cur) ->
  length noise = 256%nat -> length out = 160%nat ->
  exists out' uw, mbe_synthesizeUnvoicedFFTWithNoise o out cur prev noise = Ok (out', uw) /\ length out' = 160%nat /\ length uw = 256%nat.
Proof. exact unvoiced_defined. Qed.
Print Assumptions C44_defined.
Example C44_case : pitch_in_range (p_w0 imbe_initial) /\
  (band_edge (p_w0 imbe_initial) 0, band_edge (p_w0 imbe_initial) 1, band_edge (p_w0 imbe_initial) 39) = (2, 5, 117) /\
  pitch_in_range (p_w0 ambe_initial) /\ Z.min 128 (band_edge (p_w0 ambe_initial) 15) = 128.
Proof. vm_compute. repeat split. Qed.

(* C53; the wrapped phase is the old one less a multiple of 2 pi, within 2^-21 *)
Theorem C53_wrapped : forall o aout a cur prev uvq t aout' cur' prev' t',
  mbe_synthesizeSpeechf o aout a cur prev uvq t = Ok (aout', cur', prev', t') -> muted cur = false ->
  forall l x, 1 <= l <= 56 -> rd (p_PSIl prev) l = Ok x -> binary32 x -> finite x ->
  exists y, rd (p_PSIl prev') l = Ok y /\ wrapped y /\ rd (p_PSIl cur') l = Ok (advance (p_w0 cur) (p_w0 prev) l y) /\
    exists k : Z, (Rabs (SF2R radix2 y - (SF2R radix2 x - IZR k * SF2R radix2 two_pi)) <= / 2097152)%R.
Proof. exact phases_wrapped. Qed.
Print Assumptions C53_wrapped.
(* a muted frame stores no phase *)
Theorem C53_muted : forall o aout a cur prev uvq t aout' cur' prev' t',
  mbe_synthesizeSpeechf o aout a cur prev uvq t = Ok (aout', cur', prev', t') -> muted cur = true -> prev' = prev /\ p_PSIl cur' = p_PSIl cur.
Proof. exact phases_muted. Qed.
Print Assumptions C53_muted.
(* finite phases stay finite, so that the premise of C53_wrapped is preserved *)
Theorem C53_finite : forall o aout a cur prev uvq t aout' cur' prev' t',
  mbe_synthesizeSpeechf o aout a cur prev uvq t = Ok (aout', cur', prev', t') -> muted cur = false ->
  pitch_in_range (p_w0 cur) -> pitch_in_range (p_w0 prev) ->
  forall l x, 1 <= l <= 56 -> rd (p_PSIl prev) l = Ok x -> binary32 x -> finite x -> exists y, rd (p_PSIl cur') l = Ok y /\ binary32 y /\ finite y.
Proof. exact phases_finite. Qed.
Print Assumptions C53_finite.
(* phase 8 is stored as 8 - 2 pi = 1.7168146 *)
Example C53_case :
  match mbe_synthesizeSpeechf zero_oracle (repeat fzero 160) 0 (set_Vl (repeat 1 57) (set_L 1 imbe_initial))
          (set_PSIl (repeat (f_of_Z 8) 57) imbe_initial) 3 tls0 with
  | Ok (_, _, p, _) => nth 1 (p_PSIl p) fzero = S754_finite false 14401684 (-23)
  | UB _ => False
  end.
Proof. vm_compute. reflexivity. Qed.
