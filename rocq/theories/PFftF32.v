(* The transforms in single precision: defined, independent of old buffer contents, canonical. *)
From Coq Require Import ZArith List Bool Reals Lia Lra.
From Verif Require Import Res F32 MParms MFft SpecFft PFftSym PFftRun PFloat.
From Flocq Require Import Core.Core IEEE754.BinarySingleNaN.
Import ListNotations.
Local Open Scope Z_scope.

Lemma canon_id : forall x, vf x -> f_canon x = x.
Proof.
  intros [s|s| |s m e] H; try reflexivity. cbn [f_canon]. rewrite (binary_round_equiv 24 128).
  pose proof (binary_round_correct 24 128 Hp24 He24 mode_NE s m e) as K. cbv zeta in K. destruct K as [V K].
  set (z := binary_round 24 128 mode_NE s m e) in *. pose (a := B754_finite s m e H : binary_float 24 128).
  assert (RV : round radix2 (SpecFloat.fexp 24 128) (round_mode mode_NE) (F2R (Float radix2 (cond_Zopp s (Z.pos m)) e)) = F2R (Float radix2 (cond_Zopp s (Z.pos m)) e)).
  { apply round_generic; [apply valid_rnd_round_mode|]. change (F2R (Float radix2 (cond_Zopp s (Z.pos m)) e)) with (B2R a). apply generic_format_B2R. }
  rewrite RV in K. change (F2R (Float radix2 (cond_Zopp s (Z.pos m)) e)) with (B2R a) in K. rewrite Rlt_bool_true in K by (apply abs_B2R_lt_emax). destruct K as (K1 & K2 & K3).
  rewrite <- (B2SF_SF2B 24 128 z V). change (S754_finite s m e) with (B2SF a). f_equal. apply B2R_inj.
  - pose proof (is_finite_SF_B2SF 24 128 (SF2B z V)) as F. rewrite B2SF_SF2B in F. rewrite K2 in F. symmetry in F.
    destruct (SF2B z V) as [t|t| |t n g B] eqn:E; try reflexivity; try discriminate F. exfalso.
    assert (N : B2R (SF2B z V) = B2R a) by (rewrite B2R_SF2B; exact K1). rewrite E in N. cbn [B2R] in N. symmetry in N. unfold a, B2R in N. apply eq_0_F2R in N. destruct s; discriminate N.
  - reflexivity.
  - rewrite B2R_SF2B. exact K1.
Qed.

Section F.
Context (cosd sind : f32 -> f32).
Notation ar := (f32_arith cosd sind).
Lemma eval_vf : forall t env, (forall i, vf (env i)) -> vf (eval ar env t).
Proof.
  intros t env H. induction t; cbn [eval f32_arith a_add a_sub a_mul a_int a_two a_mh a_ms a_argh a_cos a_sin].
  - apply H.
  - now apply vf_fadd.
  - now apply vf_fsub.
  - now apply vf_fmul.
  - apply vf_of_Z.
  - apply vf_of_Z.
  - apply vf_d2f.
  - apply vf_d2f.
  - apply vf_d2f.
  - apply vf_canon.
  - apply vf_canon.
Qed.
Lemma env_vf : forall x i, Forall vf x -> vf (env_of ar x i).
Proof.
  intros x i H. unfold env_of. destruct (nth_in_or_default (Z.to_nat i) x (a_int ar 0)) as [K|K]; [exact (proj1 (Forall_forall _ _) H _ K)|]. rewrite K. apply vf_of_Z.
Qed.
Lemma forward_vf : forall c k, (forall i, vf (c i)) -> vf (forward ar c k).
Proof. intros c k H. unfold forward, fstep. repeat (apply eval_vf; intros ?). apply H. Qed.
Lemma backward_vf : forall c k, (forall i, vf (c i)) -> vf (backward ar c k).
Proof. intros c k H. unfold backward, bstep. repeat (apply eval_vf; intros ?). apply H. Qed.
Lemma seq_zs : forall (g : Z -> f32), map (fun k => g (Z.of_nat k)) (seq 0 256) = map g (zs 256).
Proof. intros g. unfold zs. now rewrite map_map. Qed.
Lemma map_zs_id : forall (g : Z -> f32), map (fun k => nth (Z.to_nat k) (map g (zs 256)) fzero) (zs 256) = map g (zs 256).
Proof.
  intros g. apply map_ext_in. intros k K. unfold zs in *. rewrite map_map. apply in_map_iff in K. destruct K as (n & <- & K). apply in_seq in K. rewrite Nat2Z.id.
  rewrite nth_indep with (d' := (fun n => g (Z.of_nat n)) 0%nat) by (rewrite map_length, seq_length; lia). rewrite (map_nth (fun n => g (Z.of_nat n))). rewrite seq_nth by lia. reflexivity.
Qed.
Theorem fft_defined : forall x, length x = 256%nat -> exists y, length y = 256%nat /\ (Forall vf x -> Forall vf y) /\
  (forall out scr, length out = 256%nat -> length scr = 256%nat -> fft256 ar x out scr = Ok y) /\
  (forall o, Forall vf x -> fft_fwd (with_pffft cosd sind o) x = y).
Proof.
  intros x L. exists (map (forward ar (env_of ar x)) (zs 256)). assert (LZ : length (map (forward ar (env_of ar x)) (zs 256)) = 256%nat) by (unfold zs; now rewrite !map_length, seq_length).
  split; [exact LZ|]. split. { intros H. apply Forall_forall. intros v K. apply in_map_iff in K. destruct K as (k & <- & _). apply forward_vf. intros i. now apply env_vf. }
  split. { intros out scr Lo Ls. now apply fft256_run. }
  intros o H. unfold fft_fwd, with_pffft. cbn [o_fft]. rewrite fft256_run by (try exact L; reflexivity).
  rewrite (seq_zs (fun k => f_canon (nth (Z.to_nat k) (map (forward ar (env_of ar x)) (zs 256)) fzero))). refine (eq_trans _ (map_zs_id _)). apply map_ext. intros k. apply canon_id.
  destruct (nth_in_or_default (Z.to_nat k) (map (forward ar (env_of ar x)) (zs 256)) fzero) as [K|K]; [|rewrite K; reflexivity]. apply in_map_iff in K. destruct K as (j & <- & _). apply forward_vf. intros i. now apply env_vf.
Qed.
Theorem ifft_defined : forall x, length x = 256%nat -> exists y, length y = 256%nat /\ (Forall vf x -> Forall vf y) /\
  (forall out scr, length out = 256%nat -> length scr = 256%nat -> ifft256 ar x out scr = Ok y) /\
  (forall o, Forall vf x -> fft_bwd (with_pffft cosd sind o) x = y).
Proof.
  intros x L. exists (map (backward ar (env_of ar x)) (zs 256)). assert (LZ : length (map (backward ar (env_of ar x)) (zs 256)) = 256%nat) by (unfold zs; now rewrite !map_length, seq_length).
  split; [exact LZ|]. split. { intros H. apply Forall_forall. intros v K. apply in_map_iff in K. destruct K as (k & <- & _). apply backward_vf. intros i. now apply env_vf. }
  split. { intros out scr Lo Ls. now apply ifft256_run. }
  intros o H. unfold fft_bwd, with_pffft. cbn [o_ifft]. rewrite ifft256_run by (try exact L; reflexivity).
  rewrite (seq_zs (fun k => f_canon (nth (Z.to_nat k) (map (backward ar (env_of ar x)) (zs 256)) fzero))). refine (eq_trans _ (map_zs_id _)). apply map_ext. intros k. apply canon_id.
  destruct (nth_in_or_default (Z.to_nat k) (map (backward ar (env_of ar x)) (zs 256)) fzero) as [K|K]; [|rewrite K; reflexivity]. apply in_map_iff in K. destruct K as (j & <- & _). apply backward_vf. intros i. now apply env_vf.
Qed.
End F.
