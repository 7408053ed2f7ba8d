(* The vector transforms are bounded. *)
From Coq Require Import ZArith Reals Lra Lia List Bool.
From Verif Require Import Res F32 MParms MUnvoiced MSynth MFft MFftSimd MAdaptive SpecOut SpecSynth SpecTrig SpecEnh2 SpecFft SpecFftErr SpecNum PFloat PReal POut PFftF32 PFftErr PFftSimdErr PIdeal PNum PNum6 PNum8.
Import ListNotations.
Local Open Scope R_scope.

Lemma vpffft_bounded : forall cosd sind o, accurate cosd sind -> bounded_transforms (with_pffft_simd cosd sind o).
Proof.
  intros cosd sind o A x b Hb LX FX. assert (V : Forall vf x) by (apply (Forall_impl _ (fun v (K : sized b v) => proj1 (proj1 K)) FX)).
  assert (S : forall m, Rabs (sample (map R_of x) m) <= b) by (intros m; apply sample_sized; [lra|exact FX]).
  split.
  - destruct (vfft_defined cosd sind x LX) as (y & LY & _ & E & D). rewrite (D o V).
    destruct (vfft_error cosd sind x b (fresh 64) (fresh 64) A Hb FX LX eq_refl eq_refl) as (z & EZ & NZ). rewrite E in EZ by reflexivity. assert (z = y) by congruence. subst z.
    apply (sized_weaken (256 * b + b / 256)); [lra|]. eapply near_sized; [exact NZ|]. apply packed_bound. intros m _. apply S.
  - destruct (vifft_defined cosd sind x LX) as (y & LY & _ & E & D). rewrite (D o V).
    destruct (vifft_error cosd sind x b (fresh 64) (fresh 64) A Hb FX LX eq_refl eq_refl) as (z & EZ & NZ). rewrite E in EZ by reflexivity. assert (z = y) by congruence. subst z.
    apply (sized_weaken (510 * b + b / 128)); [lra|]. eapply near_sized; [exact NZ|]. apply Forall_forall. intros r Hr. apply in_map_iff in Hr as (k & <- & _). apply synthesis_bound, S.
Qed.
