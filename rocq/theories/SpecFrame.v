(* Independent specification of the frame formats.  Nothing here mentions the model. *)
From Coq Require Import ZArith List Bool.
From Verif Require Import SpecEcc.
Import ListNotations.
Local Open Scope Z_scope.

(* n elements of l starting at position off *)
Definition slice {A} (off n : nat) (l : list A) : list A := firstn n (skipn off l).

(* ---- scrambling ---- *)

(* The terms x1 .. xn of x -> 173 x + 13849 mod 65536 after x0. *)
Fixpoint lcg16 (n : nat) (x : Z) : list Z :=
  match n with
  | O => []
  | S n' => let x' := (173 * x + 13849) mod 65536 in x' :: lcg16 n' x'
  end.
(* The key: the top bit of each of the first n terms, started at 16 times the seed. *)
Definition keybits (seed : Z) (n : nat) : list Z := map (fun x => x / 32768) (lcg16 n (16 * seed)).

Fixpoint xor_bits (a b : list Z) : list Z :=
  match a, b with
  | x :: a', y :: b' => Z.lxor x y :: xor_bits a' b'
  | _, _ => []
  end.

(* Exclusive or of the low length-of-key cells of a row with the key, highest cell first. *)
Definition scramble (key row : list Z) : list Z :=
  xor_bits (firstn (length key) row) (rev key) ++ skipn (length key) row.

(* A row of w cells of which the first n hold bits. *)
Definition row (w n : nat) (r : list Z) : Prop := length r = w /\ Forall is_bit (firstn n r).

(* ---- AMBE 3600: 4 rows of 24 cells ---- *)

Definition ambe_frame (fr : list (list Z)) : Prop :=
  exists r0 r1 r2 r3, fr = [r0; r1; r2; r3] /\ row 24 24 r0 /\ row 24 23 r1 /\ row 24 11 r2 /\ row 24 14 r3.

Definition ambe_scramble (fr : list (list Z)) : list (list Z) :=
  match fr with
  | [r0; r1; r2; r3] => [r0; scramble (keybits (val (skipn 12 r0)) 23) r1; r2; r3]
  | _ => fr
  end.

(* fr carries the 49 parameter bits d: C0 is a Golay word in cells 1..23 of row 0 (cell 0 is the
   extra parity bit, any value), C1 a Golay word scrambled by the C0 data bits, C2 and C3 are plain.
   Data bits are sent highest cell first. *)
Definition ambe_encoded (d : list Z) (fr : list (list Z)) : Prop :=
  exists r0 r1 r2 r3 c1, fr = [r0; r1; r2; r3]
  /\ golay_word (skipn 1 r0) /\ rev (skipn 12 r0) = slice 0 12 d
  /\ golay_word c1 /\ rev (skipn 11 c1) = slice 12 12 d
  /\ firstn 23 r1 = scramble (keybits (val (skipn 12 r0)) 23) c1
  /\ rev (firstn 11 r2) = slice 24 11 d
  /\ rev (firstn 14 r3) = slice 35 14 d.

(* got is sent after at most three bit errors in cells 1..23 of row 0 and three in cells 0..22 of row 1 *)
Definition ambe_channel (sent got : list (list Z)) : Prop :=
  exists s0 s1 s2 s3 r0 r1 r2 r3, sent = [s0; s1; s2; s3] /\ got = [r0; r1; r2; r3]
  /\ hdist (skipn 1 r0) (skipn 1 s0) <= 3
  /\ hdist (firstn 23 r1) (firstn 23 s1) <= 3
  /\ firstn 11 r2 = firstn 11 s2 /\ firstn 14 r3 = firstn 14 s3.

(* number of flipped data bits *)
Definition ambe_c0_flips (sent got : list (list Z)) : Z :=
  hdist (skipn 12 (nth 0 got [])) (skipn 12 (nth 0 sent [])).
Definition ambe_c1_flips (sent got : list (list Z)) : Z :=
  hdist (slice 11 12 (nth 1 got [])) (slice 11 12 (nth 1 sent [])).

(* ---- IMBE 7200x4400: 8 rows of 23 cells ---- *)

Definition imbe7200_frame (fr : list (list Z)) : Prop :=
  exists r0 r1 r2 r3 r4 r5 r6 r7, fr = [r0; r1; r2; r3; r4; r5; r6; r7]
  /\ row 23 23 r0 /\ row 23 23 r1 /\ row 23 23 r2 /\ row 23 23 r3
  /\ row 23 15 r4 /\ row 23 15 r5 /\ row 23 15 r6 /\ row 23 7 r7.

Definition imbe7200_scramble (fr : list (list Z)) : list (list Z) :=
  match fr with
  | [r0; r1; r2; r3; r4; r5; r6; r7] =>
      let key := keybits (val (skipn 11 r0)) 114 in
      [r0; scramble (slice 0 23 key) r1; scramble (slice 23 23 key) r2; scramble (slice 46 23 key) r3;
       scramble (slice 69 15 key) r4; scramble (slice 84 15 key) r5; scramble (slice 99 15 key) r6; r7]
  | _ => fr
  end.

(* before scrambling: four Golay words, three Hamming words and seven plain bits hold d *)
Definition imbe7200_words (d : list Z) (fr : list (list Z)) : Prop :=
  exists r0 r1 r2 r3 r4 r5 r6 r7, fr = [r0; r1; r2; r3; r4; r5; r6; r7]
  /\ golay_word r0 /\ rev (skipn 11 r0) = slice 0 12 d
  /\ golay_word r1 /\ rev (skipn 11 r1) = slice 12 12 d
  /\ golay_word r2 /\ rev (skipn 11 r2) = slice 24 12 d
  /\ golay_word r3 /\ rev (skipn 11 r3) = slice 36 12 d
  /\ hamming_word (firstn 15 r4) /\ rev (slice 4 11 r4) = slice 48 11 d
  /\ hamming_word (firstn 15 r5) /\ rev (slice 4 11 r5) = slice 59 11 d
  /\ hamming_word (firstn 15 r6) /\ rev (slice 4 11 r6) = slice 70 11 d
  /\ rev (firstn 7 r7) = slice 81 7 d.

Definition imbe7200_encoded (d : list Z) (fr : list (list Z)) : Prop :=
  exists w, imbe7200_words d w /\ fr = imbe7200_scramble w.

Definition imbe7200_channel (sent got : list (list Z)) : Prop :=
  exists s0 s1 s2 s3 s4 s5 s6 s7 r0 r1 r2 r3 r4 r5 r6 r7,
  sent = [s0; s1; s2; s3; s4; s5; s6; s7] /\ got = [r0; r1; r2; r3; r4; r5; r6; r7]
  /\ hdist r0 s0 <= 3 /\ hdist r1 s1 <= 3 /\ hdist r2 s2 <= 3 /\ hdist r3 s3 <= 3
  /\ hdist (firstn 15 r4) (firstn 15 s4) <= 1 /\ hdist (firstn 15 r5) (firstn 15 s5) <= 1
  /\ hdist (firstn 15 r6) (firstn 15 s6) <= 1 /\ firstn 7 r7 = firstn 7 s7.

(* flipped bits of row i: Golay rows count the twelve data cells, Hamming rows all fifteen *)
Definition golay_flips (i : nat) (sent got : list (list Z)) : Z :=
  hdist (slice 11 12 (nth i got [])) (slice 11 12 (nth i sent [])).
Definition hamming_flips (i : nat) (sent got : list (list Z)) : Z :=
  hdist (firstn 15 (nth i got [])) (firstn 15 (nth i sent [])).

(* ---- IMBE 7100x4400: 7 rows of 24 cells ---- *)

Definition imbe7100_frame (fr : list (list Z)) : Prop :=
  exists r0 r1 r2 r3 r4 r5 r6, fr = [r0; r1; r2; r3; r4; r5; r6]
  /\ row 24 19 r0 /\ row 24 24 r1 /\ row 24 23 r2 /\ row 24 23 r3
  /\ row 24 15 r4 /\ row 24 15 r5 /\ row 24 23 r6.

Definition imbe7100_scramble (fr : list (list Z)) : list (list Z) :=
  match fr with
  | [r0; r1; r2; r3; r4; r5; r6] =>
      let key := keybits (val (slice 12 7 r0)) 100 in
      [r0; scramble (slice 0 24 key) r1; scramble (slice 24 23 key) r2; scramble (slice 47 23 key) r3;
       scramble (slice 70 15 key) r4; scramble (slice 85 15 key) r5; r6]
  | _ => fr
  end.

(* C0 is a Golay word shortened by five zero data bits in cells 1..18 of row 0; C1 is in cells 1..23 of
   row 1; cell 0 of rows 0 and 1 is not used by the decoder. *)
Definition imbe7100_words (d : list Z) (fr : list (list Z)) : Prop :=
  exists r0 r1 r2 r3 r4 r5 r6, fr = [r0; r1; r2; r3; r4; r5; r6]
  /\ golay_word (slice 1 18 r0 ++ repeat 0 5) /\ rev (slice 12 7 r0) = slice 0 7 d
  /\ golay_word (slice 1 23 r1) /\ rev (slice 12 12 r1) = slice 7 12 d
  /\ golay_word (firstn 23 r2) /\ rev (slice 11 12 r2) = slice 19 12 d
  /\ golay_word (firstn 23 r3) /\ rev (slice 11 12 r3) = slice 31 12 d
  /\ hamming7100_word (firstn 15 r4) /\ rev (slice 4 11 r4) = slice 43 11 d
  /\ hamming7100_word (firstn 15 r5) /\ rev (slice 4 11 r5) = slice 54 11 d
  /\ rev (firstn 23 r6) = slice 65 23 d.

Definition imbe7100_encoded (d : list Z) (fr : list (list Z)) : Prop :=
  exists w, imbe7100_words d w /\ fr = imbe7100_scramble w.

Definition imbe7100_channel (sent got : list (list Z)) : Prop :=
  exists s0 s1 s2 s3 s4 s5 s6 r0 r1 r2 r3 r4 r5 r6,
  sent = [s0; s1; s2; s3; s4; s5; s6] /\ got = [r0; r1; r2; r3; r4; r5; r6]
  /\ hdist (slice 1 18 r0) (slice 1 18 s0) <= 3 /\ hdist (slice 1 23 r1) (slice 1 23 s1) <= 3
  /\ hdist (firstn 23 r2) (firstn 23 s2) <= 3 /\ hdist (firstn 23 r3) (firstn 23 s3) <= 3
  /\ hdist (firstn 15 r4) (firstn 15 s4) <= 1 /\ hdist (firstn 15 r5) (firstn 15 s5) <= 1
  /\ firstn 23 r6 = firstn 23 s6.

(* The 7100 parameter order rearranged to the 7200 order, for K voicing bits: the first parameter bit
   moves to the end; the K voicing bits, which follow the two gain bits in the 7100 order, precede
   them in the 7200 order and start at position 48 there. *)
Definition reorder7200 {A} (K : nat) (d : list A) : list A :=
  slice 1 41 d
  ++ slice (44 + K) 7 d
  ++ slice 44 K d ++ slice 42 2 d
  ++ slice (51 + K) (37 - K) d
  ++ slice 0 1 d.

(* the eight pitch bits in the two layouts, most significant first in the vector *)
Definition pitch7100 (d : list Z) : Z := val (rev (slice 1 6 d ++ slice 86 2 d)).
Definition pitch7200 (d : list Z) : Z := val (rev (slice 0 6 d ++ slice 85 2 d)).

(* number of harmonics for a pitch index: the integer part of 0.9254 times the integer part of
   (b0 + 39.5) / 4 + 0.25; one voicing bit per three harmonics, at most twelve *)
Definition imbe_harmonics (b0 : Z) : Z := 9254 * ((2 * b0 + 81) / 8) / 10000.
Definition imbe_bands (b0 : Z) : Z :=
  if imbe_harmonics b0 <? 37 then (imbe_harmonics b0 + 2) / 3 else 12.
