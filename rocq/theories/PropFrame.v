(* Property theorems C06-C15: frame error correction, demodulation, layout conversion. *)
From Coq Require Import ZArith List Bool Permutation.
From Verif Require Import Res MEcc MFrame SpecEcc SpecFrame PBase PEcc PHam PLoop PFrameAmbe PFrameImbe PFrame7200 PConv PFrame7100.
Import ListNotations.
Local Open Scope Z_scope.

(* C06: AMBE C0 correction changes only row 0; the data bits afterwards are those of the nearest Golay
   codeword, the check bits stay, and the count is the number of changed bits, at most three. *)
Theorem C06_ambe_c0_correction : forall r0 r1 r2 r3, row 24 24 r0 -> exists r0' errs cw,
  mbe_eccAmbe3600C0_common [r0; r1; r2; r3] = Ok ([r0'; r1; r2; r3], errs)
  /\ row 24 24 r0' /\ golay_word cw /\ hdist (skipn 1 r0) cw <= 3
  /\ (forall cw', golay_word cw' -> hdist (skipn 1 r0) cw' <= 3 -> cw' = cw)
  /\ skipn 12 r0' = skipn 11 cw /\ slice 1 11 r0' = slice 1 11 r0
  /\ errs = hdist r0 r0' /\ 0 <= errs <= 3
  /\ (hdist (skipn 12 r0) (skipn 11 cw) > 0 -> errs = hdist (skipn 12 r0) (skipn 11 cw))
  /\ (hdist (skipn 12 r0) (skipn 11 cw) = 0 -> errs <= 1).
Proof. exact ambe_c0_full. Qed.
Print Assumptions C06_ambe_c0_correction.

Example C06_case : row 24 24 (repeat 0 12 ++ repeat 1 3 ++ repeat 0 9)
  /\ mbe_eccAmbe3600C0_common [repeat 0 12 ++ repeat 1 3 ++ repeat 0 9; []; []; []] = Ok ([repeat 0 24; []; []; []], 3).
Proof. split; [apply row_full, is_bits_check; reflexivity|vm_compute; reflexivity]. Qed.

(* C07 is false: one check-bit error makes the code flip the extra bit although the 23 bits are no codeword. *)
Theorem C07_ambe_c0_parity_refuted : exists r0 r0' errs, is_bits 24 r0
  /\ mbe_eccAmbe3600C0_common [r0; repeat 0 24; repeat 0 24; repeat 0 24]
     = Ok ([r0'; repeat 0 24; repeat 0 24; repeat 0 24], errs)
  /\ nth 0 r0' 0 <> nth 0 r0 0 /\ ~ golay_word (skipn 1 r0) /\ ~ golay_word (skipn 1 r0')
  /\ hdist r0 (repeat 0 24) = 1 /\ hdist r0' (repeat 0 24) = 2.
Proof. exact ambe_c0_parity_refuted. Qed.
Print Assumptions C07_ambe_c0_parity_refuted.

(* What the code does: the extra bit changes exactly when no data bit needed correction and the 24 received
   bits have odd parity.  Missing from the claim: check-bit errors are not part of the test. *)
Theorem C07_ambe_c0_parity_partial : forall r0 r1 r2 r3, row 24 24 r0 -> exists r0' errs cw,
  mbe_eccAmbe3600C0_common [r0; r1; r2; r3] = Ok ([r0'; r1; r2; r3], errs)
  /\ golay_word cw /\ hdist (skipn 1 r0) cw <= 3
  /\ (nth 0 r0' 0 <> nth 0 r0 0 <->
      skipn 12 r0 = skipn 11 cw /\ Z.odd (fold_right Z.add 0 r0) = true).
Proof. exact ambe_c0_extra_bit. Qed.
Print Assumptions C07_ambe_c0_parity_partial.

Example C07_case : mbe_eccAmbe3600C0_common [1 :: repeat 0 23; []; []; []] = Ok ([repeat 0 24; []; []; []], 1).
Proof. vm_compute. reflexivity. Qed.

(* C08: AMBE demodulation is the scrambling of the specification, keeps the frame shape, and undoes itself. *)
Theorem C08_ambe_demodulation : forall fr, ambe_frame fr ->
  mbe_demodulateAmbe3600Data_common fr = Ok (ambe_scramble fr)
  /\ ambe_frame (ambe_scramble fr) /\ mbe_demodulateAmbe3600Data_common (ambe_scramble fr) = Ok fr.
Proof.
  exact (fun fr H => conj (ambe_demod_closed fr H) (conj (ambe_scramble_frame fr H)
    (eq_trans (ambe_demod_closed _ (ambe_scramble_frame fr H)) (f_equal _ (ambe_scramble_involutive fr H))))).
Qed.
Print Assumptions C08_ambe_demodulation.

Example C08_case : ambe_scramble [repeat 1 24; repeat 0 24; repeat 0 24; repeat 0 24]
  = [repeat 1 24; [0;0;1;0;0;0;0;1;1;1;1;1;1;0;0;1;1;0;1;0;0;0;0;0]; repeat 0 24; repeat 0 24].
Proof. vm_compute. reflexivity. Qed.

(* C09: every parameter vector, encoded and hit by at most three errors in each Golay word, is recovered. *)
Theorem C09_ambe_recovers : forall d sent got d0, length d = 49%nat -> ambe_encoded d sent -> ambe_frame got ->
  ambe_channel sent got -> length d0 = 49%nat ->
  exists fr' errs errs2, ambe_frame_ecc got d0 = Ok (fr', errs, errs2, d)
  /\ 0 <= errs <= 3 /\ (ambe_c0_flips sent got > 0 -> errs = ambe_c0_flips sent got)
  /\ (ambe_c0_flips sent got = 0 -> errs <= 1)
  /\ errs2 = errs + ambe_c1_flips sent got.
Proof. exact ambe_recovers. Qed.
Print Assumptions C09_ambe_recovers.

(* the hypotheses of C09 are met for every parameter vector *)
Theorem C09_ambe_encoding_exists : forall d, is_bits 49 d -> exists fr, ambe_encoded d fr /\ ambe_frame fr.
Proof. exact ambe_encoding_exists. Qed.
Print Assumptions C09_ambe_encoding_exists.

Example C09_case : ambe_frame_ecc [repeat 0 12 ++ repeat 1 3 ++ repeat 0 9;
    firstn 23 (scramble (keybits 0 23) (repeat 0 20 ++ repeat 1 3)) ++ [0]; repeat 1 24; repeat 0 24] (repeat 0 49)
  = Ok ([repeat 0 24; repeat 0 20 ++ [1; 1; 1; 0]; repeat 1 24; repeat 0 24], 3, 6, repeat 0 24 ++ repeat 1 11 ++ repeat 0 14).
Proof. vm_compute. reflexivity. Qed.

(* C10 *)
Theorem C10_imbe7200_demodulation : forall fr, imbe7200_frame fr ->
  mbe_demodulateImbe7200x4400Data fr = Ok (imbe7200_scramble fr)
  /\ imbe7200_frame (imbe7200_scramble fr) /\ mbe_demodulateImbe7200x4400Data (imbe7200_scramble fr) = Ok fr.
Proof.
  exact (fun fr H => conj (imbe7200_demod_closed fr H) (conj (imbe7200_scramble_frame fr H)
    (eq_trans (imbe7200_demod_closed _ (imbe7200_scramble_frame fr H)) (f_equal _ (imbe7200_scramble_involutive fr H))))).
Qed.
Print Assumptions C10_imbe7200_demodulation.

Example C10_case : imbe7200_frame (repeat (repeat 1 23) 8)
  /\ nth 6 (imbe7200_scramble (repeat (repeat 1 23) 8)) [] = [1;1;1;1;0;0;1;0;0;0;1;1;0;1;1] ++ repeat 1 8.
Proof.
  split; [|vm_compute; reflexivity].
  do 8 eexists. split; [reflexivity|]. repeat split; cbn; repeat (constructor; [right; reflexivity|]); constructor.
Qed.

(* C11 *)
Theorem C11_imbe7200_recovers : forall d sent got d0, length d = 88%nat -> imbe7200_encoded d sent ->
  imbe7200_frame sent -> imbe7200_frame got -> imbe7200_channel sent got -> length d0 = 88%nat ->
  exists fr', imbe7200_frame_ecc got d0 = Ok (fr', golay_flips 0 sent got,
    golay_flips 0 sent got + golay_flips 1 sent got + golay_flips 2 sent got + golay_flips 3 sent got
    + hamming_flips 4 sent got + hamming_flips 5 sent got + hamming_flips 6 sent got,
    hamming_flips 4 sent got, d).
Proof. exact imbe7200_recovers. Qed.
Print Assumptions C11_imbe7200_recovers.

Theorem C11_imbe7200_encoding_exists : forall d, is_bits 88 d -> exists fr, imbe7200_encoded d fr /\ imbe7200_frame fr.
Proof. exact imbe7200_encoding_exists. Qed.
Print Assumptions C11_imbe7200_encoding_exists.

Example C11_case : exists fr, imbe7200_encoded (repeat 1 88) fr /\ imbe7200_frame fr.
Proof. apply C11_imbe7200_encoding_exists, is_bits_check. reflexivity. Qed.

(* C12 *)
Theorem C12_imbe7100_demodulation : forall fr, imbe7100_frame fr ->
  mbe_demodulateImbe7100x4400Data fr = Ok (imbe7100_scramble fr)
  /\ imbe7100_frame (imbe7100_scramble fr) /\ mbe_demodulateImbe7100x4400Data (imbe7100_scramble fr) = Ok fr.
Proof.
  exact (fun fr H => conj (imbe7100_demod_closed fr H) (conj (imbe7100_scramble_frame fr H)
    (eq_trans (imbe7100_demod_closed _ (imbe7100_scramble_frame fr H)) (f_equal _ (imbe7100_scramble_involutive fr H))))).
Qed.
Print Assumptions C12_imbe7100_demodulation.

Example C12_case : imbe7100_frame (repeat (repeat 1 24) 7)
  /\ nth 5 (imbe7100_scramble (repeat (repeat 1 24) 7)) [] <> repeat 1 24.
Proof.
  split; [|vm_compute; discriminate].
  do 7 eexists. split; [reflexivity|]. repeat split; cbn; repeat (constructor; [right; reflexivity|]); constructor.
Qed.

(* C13 *)
Theorem C13_imbe7100_recovers : forall d sent got d0, length d = 88%nat -> imbe7100_encoded d sent ->
  imbe7100_frame sent -> imbe7100_frame got -> imbe7100_channel sent got -> length d0 = 88%nat ->
  exists fr', imbe7100_frame_ecc got d0 = Ok (fr',
    hdist (slice 12 7 (nth 0 got [])) (slice 12 7 (nth 0 sent [])),
    hdist (slice 12 7 (nth 0 got [])) (slice 12 7 (nth 0 sent []))
    + hdist (slice 12 12 (nth 1 got [])) (slice 12 12 (nth 1 sent []))
    + golay_flips 2 sent got + golay_flips 3 sent got + hamming_flips 4 sent got + hamming_flips 5 sent got,
    hamming_flips 4 sent got, reorder7200 (Z.to_nat (imbe_bands (pitch7100 d))) d).
Proof. exact imbe7100_recovers. Qed.
Print Assumptions C13_imbe7100_recovers.

Theorem C13_imbe7100_encoding_exists : forall d, is_bits 88 d -> exists fr, imbe7100_encoded d fr /\ imbe7100_frame fr.
Proof. exact imbe7100_encoding_exists. Qed.
Print Assumptions C13_imbe7100_encoding_exists.

Example C13_case : exists fr, imbe7100_encoded (repeat 1 88) fr /\ imbe7100_frame fr.
Proof. apply C13_imbe7100_encoding_exists, is_bits_check. reflexivity. Qed.

(* C14: the conversion picks each input position exactly once, keeps the pitch, and is injective. *)
Theorem C14_conversion_is_rearrangement : forall d, is_bits 88 d -> exists out pos,
  mbe_convertImbe7100to7200 d = Ok out /\ is_bits 88 out
  /\ Permutation pos (seq 0 88) /\ out = map (fun p => nth p d 0) pos
  /\ pitch7200 out = pitch7100 d
  /\ out = reorder7200 (Z.to_nat (imbe_bands (pitch7100 d))) d.
Proof. exact convert_full. Qed.
Print Assumptions C14_conversion_is_rearrangement.

Theorem C14_conversion_injective : forall d d' out, is_bits 88 d -> is_bits 88 d' ->
  mbe_convertImbe7100to7200 d = Ok out -> mbe_convertImbe7100to7200 d' = Ok out -> d = d'.
Proof. exact convert_inj. Qed.
Print Assumptions C14_conversion_injective.

Example C14_case : mbe_convertImbe7100to7200 (repeat 1 44 ++ repeat 0 44)
  = Ok (repeat 1 41 ++ repeat 0 19 ++ [1; 1] ++ repeat 0 25 ++ [1]).
Proof. vm_compute. reflexivity. Qed.

(* C15, counters; the status string is in PropStatus *)
Theorem C15_ambe_counters : forall fr d0, ambe_frame fr -> length d0 = 49%nat ->
  exists fr' errs errs2 d, ambe_frame_ecc fr d0 = Ok (fr', errs, errs2, d)
  /\ is_bits 49 d /\ 0 <= errs <= 3 /\ errs <= errs2 <= 6.
Proof. exact ambe_bounds. Qed.
Print Assumptions C15_ambe_counters.

Theorem C15_imbe7200_counters : forall fr d0, imbe7200_frame fr -> length d0 = 88%nat ->
  exists fr' errs errs2 c4 d, imbe7200_frame_ecc fr d0 = Ok (fr', errs, errs2, c4, d)
  /\ is_bits 88 d /\ 0 <= errs <= 3 /\ errs <= errs2 <= 15 /\ 0 <= c4 <= 1.
Proof. exact imbe7200_bounds. Qed.
Print Assumptions C15_imbe7200_counters.

Theorem C15_imbe7100_counters : forall fr d0, imbe7100_frame fr -> length d0 = 88%nat ->
  exists fr' errs errs2 c4 d, imbe7100_frame_ecc fr d0 = Ok (fr', errs, errs2, c4, d)
  /\ is_bits 88 d /\ 0 <= errs <= 3 /\ errs <= errs2 <= 14 /\ 0 <= c4 <= 1.
Proof. exact imbe7100_bounds. Qed.
Print Assumptions C15_imbe7100_counters.

Example C15_case : exists fr d, imbe7200_frame_ecc
   [repeat 1 23; repeat 0 23; repeat 1 23; repeat 0 23; repeat 1 23; repeat 0 23; repeat 1 23; repeat 0 23] (repeat 0 88)
   = Ok (fr, 0, 7, 1, d).
Proof. eexists _, _. vm_compute. reflexivity. Qed.
