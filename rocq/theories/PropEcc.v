(* Property theorems C01-C05: the block codes of /repo/src/ecc/ecc.c. *)
From Coq Require Import ZArith List Bool.
From Verif Require Import Res MEcc SpecEcc PBase PEcc PHam.
Import ListNotations.
Local Open Scope Z_scope.

(* C01: a packed word within three bit errors of a Golay codeword decodes to that codeword's data. *)
Theorem C01_golay_block_corrects_three : forall c v,
  golay_codeword c -> 0 <= v < 2 ^ 23 -> weight 23 (Z.lxor v c) <= 3 ->
  mbe_checkGolayBlock v = Ok (golay_data c).
Proof. exact checkGolay_corrects. Qed.
Print Assumptions C01_golay_block_corrects_three.

Example C01_case : golay_codeword (clmul 12 2741 golay_poly)
  /\ 0 <= Z.lxor (clmul 12 2741 golay_poly) (2 ^ 22 + 2 ^ 11 + 1) < 2 ^ 23
  /\ weight 23 (Z.lxor (Z.lxor (clmul 12 2741 golay_poly) (2 ^ 22 + 2 ^ 11 + 1)) (clmul 12 2741 golay_poly)) = 3.
Proof. split; [exists 2741; split; [split; vm_compute; congruence|reflexivity]|]. vm_compute. repeat split; congruence. Qed.

(* C02: nearest-codeword decoding of 23-bit arrays: existence and uniqueness of the codeword, data bits
   from the codeword, check bits copied, exact change count, idempotence. *)
Theorem C02_golay_nearest_codeword : forall l, is_bits 23 l ->
  exists cw out errs,
    golay_word cw /\ hdist l cw <= 3 /\ (forall cw', golay_word cw' -> hdist l cw' <= 3 -> cw' = cw)
    /\ mbe_golay2312 l = Ok (out, errs)
    /\ is_bits 23 out /\ skipn 11 out = skipn 11 cw /\ firstn 11 out = firstn 11 l
    /\ errs = hdist l out /\ 0 <= errs <= 3
    /\ mbe_golay2312 out = Ok (out, 0).
Proof. exact golay2312_full. Qed.
Print Assumptions C02_golay_nearest_codeword.

Example C02_case : is_bits 23 [1;0;1;1;0;1;0;1;1;0;1;0;1;1;1;0;0;1;0;1;0;0;1]
  /\ mbe_golay2312 [1;0;1;1;0;1;0;1;1;0;1;0;1;1;1;0;0;1;0;1;0;0;1]
     = Ok ([1;0;1;1;0;1;0;1;1;0;1;0;1;1;1;1;0;1;0;1;0;0;1], 1).
Proof. split; [apply is_bits_check; reflexivity|vm_compute; reflexivity]. Qed.

(* C03 is false: bit 23 survives into the result, which is then not a 12-bit value. *)
Theorem C03_golay_block_upper_bits_refuted : exists v d, 0 <= v < 2 ^ 63
  /\ mbe_checkGolayBlock v = Ok d /\ mbe_checkGolayBlock (v mod 2 ^ 23) <> Ok d /\ 4096 <= d.
Proof. exists (2 ^ 23), 4096. vm_compute. repeat split; congruence. Qed.
Print Assumptions C03_golay_block_upper_bits_refuted.

(* What holds instead, for every long: the low 12 bits are right, bits 23..31 of the argument are
   copied to bits 12..20 of the result, and bits above 31 are ignored. *)
Theorem C03_golay_block_upper_bits_partial : forall v, exists d,
  mbe_checkGolayBlock (v mod 2 ^ 23) = Ok d /\ 0 <= d < 4096
  /\ mbe_checkGolayBlock v = Ok (d + 4096 * ((v mod 2 ^ 32) / 2 ^ 23)).
Proof. exact checkGolay_any. Qed.
Print Assumptions C03_golay_block_upper_bits_partial.

Example C03_case : mbe_checkGolayBlock (-1) = Ok (4095 + 4096 * 511).
Proof. vm_compute. reflexivity. Qed.

(* C04: Hamming decoding writes a codeword within one bit, returns the number of changed bits, and
   restores every codeword with at most one flipped bit. *)
Theorem C04_hamming_corrects_one : forall l, is_bits 15 l ->
  exists out e, mbe_hamming1511 l = Ok (out, e) /\ hamming_word out /\ e = hdist l out /\ 0 <= e <= 1
  /\ (forall cw, hamming_word cw -> hdist l cw <= 1 -> out = cw).
Proof. exact hamming_full. Qed.
Print Assumptions C04_hamming_corrects_one.

Example C04_case : is_bits 15 [1;1;0;0;1;0;0;0;0;0;0;0;0;0;1]
  /\ hamming_word [1;1;0;0;1;0;0;0;0;0;0;0;0;0;0]
  /\ mbe_hamming1511 [1;1;0;0;1;0;0;0;0;0;0;0;0;0;1] = Ok ([1;1;0;0;1;0;0;0;0;0;0;0;0;0;0], 1).
Proof.
  split; [apply is_bits_check; reflexivity|].
  split; [split; [apply is_bits_check; reflexivity|reflexivity]|].
  vm_compute. reflexivity.
Qed.

(* C05: the same for the 7100x4400 code. *)
Theorem C05_hamming7100_corrects_one : forall l, is_bits 15 l ->
  exists out e, mbe_7100x4400hamming1511 l = Ok (out, e) /\ hamming7100_word out /\ e = hdist l out /\ 0 <= e <= 1
  /\ (forall cw, hamming7100_word cw -> hdist l cw <= 1 -> out = cw).
Proof. exact hamming7100_full. Qed.
Print Assumptions C05_hamming7100_corrects_one.

Example C05_case : hamming7100_word [1;1;0;0;1;0;0;0;0;0;0;0;0;0;0]
  /\ mbe_7100x4400hamming1511 [1;1;0;0;1;0;0;0;0;0;0;0;0;0;1] = Ok ([1;1;0;0;1;0;0;0;0;0;0;0;0;0;0], 1).
Proof.
  split; [split; [apply is_bits_check; reflexivity|]|].
  - exists 1. split; [vm_compute; split; congruence|reflexivity].
  - vm_compute. reflexivity.
Qed.
