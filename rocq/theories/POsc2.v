(* The oscillators of voiced synthesis as the model runs them. *)
From Coq Require Import ZArith Reals Lia List Bool.
From Verif Require Import Res F32 MParms MUnvoiced MSynth SpecAmp SpecSynth PBase PArr PSynth PFloat SpecTrig POsc SpecEnh2 PEnh2.
Import ListNotations.
Local Open Scope Z_scope.

Lemma oscillator_run : forall simd o start step amp aout off, length aout = 160%nat -> off = 0 \/ off = 160 -> trig_close o start -> trig_close o step ->
  exists r, add_oscillator simd aout off amp (cosf o start) (sinf o start) (sinf o step) (cosf o step) = Ok r /\ length r = 160%nat /\
  forall n x, 0 <= n < 160 -> rd aout n = Ok x -> exists c, near c (cos (R_of start + IZR n * R_of step))%R (/ 8192)%R /\
    rd r n = Ok (fadd x (if lanes4 simd then fmul (fmul c (fade (n + off))) (fmul (f_of_Z 2) amp) else fmul (fmul (fmul (f_of_Z 2) (fade (n + off))) amp) c)).
Proof.
  intros simd o start step amp aout off L Ho T1 T2.
  destruct (osc_value simd aout off amp (cosf o start) (sinf o start) (sinf o step) (cosf o step) L Ho) as (r & E & Lr & V).
  exists r. split; [exact E|]. split; [exact Lr|]. intros n x Hn X. exists (oscillator o start step (Z.to_nat n)). split.
  - assert (B : (Z.to_nat n <= 160)%nat) by lia. pose proof (oscillator_near o start step (Z.to_nat n) B T1 T2) as H.
    rewrite INR_IZR_INZ, Z2Nat.id in H by lia. exact H.
  - rewrite (V n x Hn X). reflexivity.
Qed.

Lemma cosines_run : forall o L w0, 0 <= L <= 56 -> trig_close o w0 -> exists tab, enh_cos_tab o L w0 = Ok tab /\
  forall l, 1 <= l <= L -> exists c, rdi tab l = Ok c /\ near c (cos (IZR l * R_of w0)) (/ 16384)%R.
Proof.
  intros o L w0 HL T. destruct (cos_tab_val o L w0 HL) as (tab & E & V). exists tab. split; [exact E|]. intros l Hl.
  exists (harmonic_cos o w0 l). split; [exact (V l Hl)|]. apply harmonic_cos_near; [lia|exact T].
Qed.
