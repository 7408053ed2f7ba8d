(* The modelled transforms are bounded, the correctly rounded functions are accurate, and numbers convert to 16 bits. *)
From Coq Require Import ZArith Reals Lra Lia List Bool.
From Verif Require Import Res F32 MParms MUnvoiced MSynth MFft MAdaptive SpecOut SpecSynth SpecTrig SpecEnh2 SpecFft SpecFftErr SpecNum PFloat PReal POut PFftF32 PFftErr PIdeal PNum.
From Flocq Require Import Core.Core.
Import ListNotations.
Local Open Scope R_scope.

Lemma sample_sized : forall x B m, 0 <= B -> Forall (sized B) x -> Rabs (sample (map R_of x) m) <= B.
Proof.
  intros x B m HB F. unfold sample. destruct (Nat.lt_ge_cases m (length x)) as [H|H].
  - rewrite (nth_indep _ 0 (R_of fzero)) by (rewrite map_length; exact H). rewrite map_nth. rewrite Forall_forall in F. apply F, nth_In, H.
  - rewrite nth_overflow by (rewrite map_length; exact H). rewrite Rabs_R0. exact HB.
Qed.
Lemma near_sized : forall b e y rs, Forall2 (fun v r => near v r e) y rs -> Forall (fun r => Rabs r <= b) rs -> Forall (sized (b + e)) y.
Proof.
  intros b e y rs F. induction F as [|v r y rs [N1 N2] F IH]; intros G; [constructor|]. apply Forall_cons_iff in G as [G1 G2]. apply Forall_cons; [|auto].
  split; [exact N1|]. apply Rabs_le_inv in N2, G1. apply Rabs_le. lra.
Qed.
Lemma synthesis_bound : forall y B m, (forall k, Rabs (sample y k) <= B) -> Rabs (synthesis y m) <= 510 * B.
Proof.
  intros y B m H. unfold synthesis.
  assert (K : forall k c, -1 <= c <= 1 -> Rabs (sample y k * c) <= B).
  { intros k c Hc. rewrite Rabs_mult. assert (Rabs c <= 1) by (apply Rabs_le; lra). pose proof (Rabs_pos (sample y k)). pose proof (Rabs_pos c). pose proof (H k).
    apply Rle_trans with (Rabs (sample y k) * 1); [apply Rmult_le_compat_l; lra|lra]. }
  pose proof (H 0%nat) as H0. pose proof (K 1%nat _ (COS_bound (turn 128 m))) as H1.
  pose proof (total_bound 127 (fun k => sample y (2 * S k) * cos (turn (S k) m) - sample y (2 * S k + 1) * sin (turn (S k) m)) (2 * B)) as H2.
  replace (INR 127) with 127 in H2 by (rewrite INR_IZR_INZ; reflexivity).
  assert (H3 : Rabs (total 127 (fun k => sample y (2 * S k) * cos (turn (S k) m) - sample y (2 * S k + 1) * sin (turn (S k) m))) <= 127 * (2 * B)).
  { apply H2. intros k _. pose proof (K (2 * S k)%nat _ (COS_bound (turn (S k) m))) as A1. pose proof (K (2 * S k + 1)%nat _ (SIN_bound (turn (S k) m))) as A2.
    apply Rabs_le_inv in A1, A2. apply Rabs_le. lra. }
  apply Rabs_le_inv in H0, H1, H3. apply Rabs_le. lra.
Qed.
Lemma sized_weaken : forall a b x, a <= b -> Forall (sized a) x -> Forall (sized b) x.
Proof. intros a b x H F. apply (Forall_impl _ (fun v (K : sized a v) => conj (proj1 K) (Rle_trans _ _ _ (proj2 K) H)) F). Qed.
Lemma pffft_bounded : forall cosd sind o, accurate cosd sind -> bounded_transforms (with_pffft cosd sind o).
Proof.
  intros cosd sind o A x b Hb LX FX. assert (V : Forall vf x) by (apply (Forall_impl _ (fun v (K : sized b v) => proj1 (proj1 K)) FX)).
  assert (S : forall m, Rabs (sample (map R_of x) m) <= b) by (intros m; apply sample_sized; [lra|exact FX]).
  split.
  - destruct (fft_defined cosd sind x LX) as (y & LY & _ & E & D). rewrite (D o V).
    destruct (fft_error cosd sind x b (fresh 256) (fresh 256) A Hb FX LX eq_refl eq_refl) as (z & EZ & NZ). rewrite E in EZ by reflexivity. assert (z = y) by congruence. subst z.
    apply (sized_weaken (256 * b + b / 256)); [lra|]. eapply near_sized; [exact NZ|]. apply packed_bound. intros m _. apply S.
  - destruct (ifft_defined cosd sind x LX) as (y & LY & _ & E & D). rewrite (D o V).
    destruct (ifft_error cosd sind x b (fresh 256) (fresh 256) A Hb FX LX eq_refl eq_refl) as (z & EZ & NZ). rewrite E in EZ by reflexivity. assert (z = y) by congruence. subst z.
    apply (sized_weaken (510 * b + b / 128)); [lra|]. eapply near_sized; [exact NZ|]. apply Forall_forall. intros r Hr. apply in_map_iff in Hr as (k & <- & _). apply synthesis_bound, S.
Qed.
Lemma ideal_angles : forall cosd sind, accurate_angles (with_pffft cosd sind ideal).
Proof. intros cosd sind x _ _. exact (ideal_trig x). Qed.

Lemma number_shorts : forall o s aout, length s = 160%nat -> length aout = 160%nat -> Forall number s -> mbe_floattoshort o s aout = Ok (map short_spec s).
Proof.
  intros o s aout LS LA F. apply convert_either; [assumption|assumption|]. eapply Forall_impl; [|exact F]. intros x [[V N] _]. split; [exact V|]. intros ->. discriminate N.
Qed.
