(* C92: damage beyond the reach of the codes stays in the code word it hits, as long as the first word can be corrected. *)
From Coq Require Import ZArith List Bool.
From Verif Require Import Res MEcc MFrame SpecEcc SpecFrame SpecLocal PBase PLocal.
Import ListNotations.
Local Open Scope Z_scope.

(* C92: the blocks that give the bits sent are those hit by no more errors than their code corrects, whatever happened to the others, and no counter
   exceeds the channel's errors, in each block counted up to what its code corrects *)
Theorem C92_imbe7200 : forall d sent got d0, length d = 88%nat -> imbe7200_encoded d sent -> imbe7200_frame sent -> imbe7200_frame got -> length d0 = 88%nat ->
  reachable sent got (mkblock 0 0 23 3 0 12) ->
  exists fr' errs errs2 c4 d', imbe7200_frame_ecc got d0 = Ok (fr', errs, errs2, c4, d') /\ saved sent got d d' blocks_7200 /\
    0 <= errs <= flips sent got (mkblock 0 0 23 3 0 12) /\ errs <= errs2 <= countable sent got blocks_7200 /\ 0 <= c4 <= Z.min 1 (flips sent got (mkblock 4 0 15 1 48 11)).
Proof. exact local7200. Qed.
Print Assumptions C92_imbe7200.
(* C92: the same for 7100 frames; the parameter bits are then rearranged *)
Theorem C92_imbe7100 : forall d sent got d0, length d = 88%nat -> imbe7100_encoded d sent -> imbe7100_frame sent -> imbe7100_frame got -> length d0 = 88%nat ->
  reachable sent got (mkblock 0 1 18 3 0 7) ->
  exists fr' errs errs2 c4 d', imbe7100_frame_ecc got d0 = Ok (fr', errs, errs2, c4, reorder7200 (Z.to_nat (imbe_bands (pitch7100 d'))) d') /\ saved sent got d d' blocks_7100 /\
    0 <= errs <= flips sent got (mkblock 0 1 18 3 0 7) /\ errs <= errs2 <= countable sent got blocks_7100 /\ 0 <= c4 <= Z.min 1 (flips sent got (mkblock 4 0 15 1 43 11)).
Proof. exact local7100. Qed.
Print Assumptions C92_imbe7100.
(* C92: and for AMBE frames; the counter of the first word includes the parity bit, so it is no more than the errors of the row if that was sent with even parity *)
Theorem C92_ambe : forall d sent got d0, length d = 49%nat -> ambe_encoded d sent -> ambe_frame sent -> ambe_frame got -> length d0 = 49%nat ->
  reachable sent got (mkblock 0 1 23 3 0 12) ->
  exists fr' errs errs2 d', ambe_frame_ecc got d0 = Ok (fr', errs, errs2, d') /\ saved sent got d d' blocks_ambe /\
    0 <= errs <= 3 /\ (even_row sent -> errs <= row0_flips sent got) /\ errs <= errs2 <= errs + Z.min 3 (flips sent got (mkblock 1 0 23 3 12 12)).
Proof. exact local_ambe. Qed.
Print Assumptions C92_ambe.
(* C92: the parameter bits are those sent only if every block was hit by no more errors than its code corrects *)
Theorem C92_exact_imbe7200 : forall d sent got d0, length d = 88%nat -> imbe7200_encoded d sent -> imbe7200_frame sent -> imbe7200_frame got -> length d0 = 88%nat ->
  exists fr' errs errs2 c4 d', imbe7200_frame_ecc got d0 = Ok (fr', errs, errs2, c4, d') /\ (Forall (reachable sent got) blocks_7200 <-> d' = d).
Proof. exact whole7200. Qed.
Print Assumptions C92_exact_imbe7200.
Theorem C92_exact_ambe : forall d sent got d0, length d = 49%nat -> ambe_encoded d sent -> ambe_frame sent -> ambe_frame got -> length d0 = 49%nat ->
  exists fr' errs errs2 d', ambe_frame_ecc got d0 = Ok (fr', errs, errs2, d') /\ (Forall (reachable sent got) blocks_ambe <-> d' = d).
Proof. exact whole_ambe. Qed.
Print Assumptions C92_exact_ambe.
(* C92: the first word gives the bits sent if and only if it was hit by at most three errors, whatever the rest *)
Theorem C92_first_imbe7200 : forall d sent got d0, length d = 88%nat -> imbe7200_encoded d sent -> imbe7200_frame sent -> imbe7200_frame got -> length d0 = 88%nat ->
  exists fr' errs errs2 c4 d', imbe7200_frame_ecc got d0 = Ok (fr', errs, errs2, c4, d') /\ length d' = 88%nat /\
    (reachable sent got (mkblock 0 0 23 3 0 12) <-> part d' (mkblock 0 0 23 3 0 12) = part d (mkblock 0 0 23 3 0 12)).
Proof. exact first7200. Qed.
Print Assumptions C92_first_imbe7200.
Theorem C92_first_ambe : forall d sent got d0, length d = 49%nat -> ambe_encoded d sent -> ambe_frame sent -> ambe_frame got -> length d0 = 49%nat ->
  exists fr' errs errs2 d', ambe_frame_ecc got d0 = Ok (fr', errs, errs2, d') /\ length d' = 49%nat /\
    (reachable sent got (mkblock 0 1 23 3 0 12) <-> part d' (mkblock 0 1 23 3 0 12) = part d (mkblock 0 1 23 3 0 12)).
Proof. exact first_ambe. Qed.
Print Assumptions C92_first_ambe.
(* C92: without the premise on the first word it is false: four errors there and none elsewhere spoil every code word, and ten errors are reported *)
Theorem C92_first_word_refuted : exists d sent got fr' errs errs2 c4 d', imbe7200_encoded d sent /\ imbe7200_frame sent /\ imbe7200_frame got /\ flips sent got (mkblock 0 0 23 3 0 12) = 4 /\
  (forall b, In b (tl blocks_7200) -> flips sent got b = 0) /\ imbe7200_frame_ecc got (repeat 0 88) = Ok (fr', errs, errs2, c4, d') /\ errs2 = 10 /\
  (forall b, In b (removelast blocks_7200) -> part d' b <> part d b).
Proof. exact first_refuted. Qed.
Print Assumptions C92_first_word_refuted.

(* twelve errors in the second word of an all-zero vector: all other bits survive, its own do not, and at most three errors are reported *)
Example C92_case : exists fr' errs errs2 c4 d', imbe7200_frame_ecc second_hit (repeat 0 88) = Ok (fr', errs, errs2, c4, d') /\
  slice 0 12 d' = repeat 0 12 /\ slice 12 12 d' <> repeat 0 12 /\ slice 36 12 d' = repeat 0 12 /\ slice 48 11 d' = repeat 0 11 /\ slice 81 7 d' = repeat 0 7 /\ errs = 0 /\ errs2 <= 3.
Proof.
  destruct zero_encoded as (A & B & _). destruct second_case as (C & F1 & F). cbn [forallb skipn blocks_7200] in F. rewrite !andb_true_iff, !Z.eqb_eq in F.
  destruct F as (F0 & F2 & F3 & F4 & F5 & F6 & F7 & _).
  destruct (C92_imbe7200 (repeat 0 88) zero_sent second_hit (repeat 0 88) eq_refl A B C eq_refl) as (fr' & errs & errs2 & c4 & d' & E & S & Q0 & Q & _).
  { unfold reachable. rewrite F0. discriminate. }
  exists fr', errs, errs2, c4, d'. split; [exact E|]. unfold saved, blocks_7200 in S. rewrite Forall_forall in S.
  assert (P : forall b, In b blocks_7200 -> flips zero_sent second_hit b = 0 -> 0 <= b_cap b -> part d' b = part (repeat 0 88) b) by (intros b Hb H0 Hc; apply S; [exact Hb|unfold reachable; rewrite H0; exact Hc]).
  split; [apply (P (mkblock 0 0 23 3 0 12)); [cbn; auto|exact F0|discriminate]|].
  split; [intros X; apply (S (mkblock 1 0 23 3 12 12)) in X; [unfold reachable in X; rewrite F1 in X; now apply X|cbn; auto]|]. split; [apply (P (mkblock 3 0 23 3 36 12)); [cbn; auto|exact F3|discriminate]|].
  split; [apply (P (mkblock 4 0 15 1 48 11)); [cbn; auto 10|exact F4|discriminate]|]. split; [apply (P (mkblock 7 0 7 0 81 7)); [cbn; auto 10|exact F7|discriminate]|].
  rewrite F0 in Q0. split; [apply Z.le_antisymm; apply Q0|]. unfold countable, blocks_7200 in Q. cbn [fold_right] in Q. rewrite F0, F1, F2, F3, F4, F5, F6, F7 in Q. apply Q.
Qed.
