(* Parameter bits that the decoders do not read. *)
From Coq Require Import ZArith List Bool Lia Permutation.
From Verif Require Import Res F32 TabImbe MFrame MParms MAdaptive MUnvoiced MSynth MImbe MAmbe SpecFrame SpecAmp PBase PRun PCache.
Import ListNotations.
Local Open Scope Z_scope.

Lemma read_b0_but : forall i d d' ps, same_but i d d' -> ~ In i ps -> read_b0 d ps = read_b0 d' ps.
Proof.
  intros i d d' ps H N. unfold read_b0. f_equal. induction ps as [|p ps IH]; [reflexivity|].
  rewrite (H p) by (intros ->; apply N; left; reflexivity). rewrite IH by (intros I; apply N; right; exact I). reflexivity.
Qed.
Lemma bits_msb_but : forall i d d' ps, same_but i d d' -> ~ In i ps -> bits_msb d ps = bits_msb d' ps.
Proof.
  intros i d d' ps H N. induction ps as [|p ps IH]; [reflexivity|]. cbn [bits_msb].
  rewrite (H p) by (intros ->; apply N; left; reflexivity). rewrite IH by (intros I; apply N; right; exact I). reflexivity.
Qed.
Ltac absent := cbn [In]; intuition discriminate.
Lemma imbe_bb_but : forall d d' L9, same_but 87 d d' -> imbe_bb d L9 = imbe_bb d' L9.
Proof.
  intros d d' L9 H. unfold imbe_bb. apply bind_ext. intros pos _. apply for_up_ext. intros i bb Hi. apply bind_ext. intros x _. apply bind_ext. intros y _.
  rewrite (H i) by lia. reflexivity.
Qed.
Lemma decode_imbe_but : forall o d d' cur prev, same_but 87 d d' -> mbe_decodeImbe4400Parms o d cur prev = mbe_decodeImbe4400Parms o d' cur prev.
Proof.
  intros o d d' cur prev H. unfold mbe_decodeImbe4400Parms. cbv zeta. rewrite (read_b0_but 87 d d') by (exact H || absent). apply bind_ext. intros b0 _.
  destruct (207 <? b0); [reflexivity|]. apply bind_ext. intros L _. destruct ((56 <? L) || (L <? 9)); [reflexivity|]. apply bind_ext. intros K _.
  rewrite (imbe_bb_but d d') by exact H. reflexivity.
Qed.
Lemma imbe_but : forall o a buf e2 d d' st uv c0 cv t, same_but 87 d d' ->
  mbe_processImbe4400Dataf_withC0 o a buf e2 d st uv c0 cv t = mbe_processImbe4400Dataf_withC0 o a buf e2 d' st uv c0 cv t.
Proof.
  intros o a buf e2 d d' [[cur prev] enh] uv c0 cv t H. unfold mbe_processImbe4400Dataf_withC0.
  assert (P : imbe_parameters o d e2 cur prev c0 cv = imbe_parameters o d' e2 cur prev c0 cv) by (unfold imbe_parameters; cbv zeta; rewrite (decode_imbe_but o d d') by exact H; reflexivity).
  rewrite P. reflexivity.
Qed.
Lemma decode2400_but : forall o d d' cur prev, same_but 24 d d' -> mbe_decodeAmbe2400Parms o d cur prev = mbe_decodeAmbe2400Parms o d' cur prev.
Proof.
  intros o d d' cur prev H. unfold mbe_decodeAmbe2400Parms, ambe2400_tone_index, ambe2400_pitch. cbv zeta.
  repeat rewrite (bits_msb_but 24 d d') by (exact H || absent). reflexivity.
Qed.
Lemma ambe2400_but : forall o a buf e e2 d d' st uv t, same_but 24 d d' ->
  mbe_processAmbe2400Dataf o a buf e e2 d st uv t = mbe_processAmbe2400Dataf o a buf e e2 d' st uv t.
Proof.
  intros o a buf e e2 d d' [[cur prev] enh] uv t H. unfold mbe_processAmbe2400Dataf. apply bind_ext. intros [[c p] en] _. cbv zeta.
  rewrite (decode2400_but o d d') by exact H. reflexivity.
Qed.
Lemma perm_check : forall l l' : list Z, forallb (fun x => Nat.eqb (count_occ Z.eq_dec l x) (count_occ Z.eq_dec l' x)) (l ++ l') = true -> Permutation l l'.
Proof.
  intros l l' H. apply (Permutation_count_occ Z.eq_dec). intros x. rewrite forallb_forall in H.
  destruct (in_dec Z.eq_dec x (l ++ l')) as [I|N]; [apply Nat.eqb_eq, H, I|].
  assert (N1 : ~ In x l) by (intros I; apply N, in_or_app; auto). assert (N2 : ~ In x l') by (intros I; apply N, in_or_app; auto).
  apply (count_occ_not_In Z.eq_dec) in N1. apply (count_occ_not_In Z.eq_dec) in N2. congruence.
Qed.
Lemma fields2450_all : Permutation (concat fields2450) (map Z.of_nat (seq 0 49)).
Proof. apply perm_check. vm_compute. reflexivity. Qed.
Lemma fields2400_all : Permutation (24 :: concat fields2400) (map Z.of_nat (seq 0 49)).
Proof. apply perm_check. vm_compute. reflexivity. Qed.
