(* Independent specification of the block codes.  Uses no definition of the model. *)
From Coq Require Import ZArith List Bool.
Import ListNotations.
Local Open Scope Z_scope.

(* A bit, and a list of n bits (index 0 is the least significant bit). *)
Definition is_bit (z : Z) : Prop := z = 0 \/ z = 1.
Definition is_bits (n : nat) (l : list Z) : Prop := length l = n /\ Forall is_bit l.

(* The number with binary digits l, least significant first. *)
Fixpoint val (l : list Z) : Z :=
  match l with [] => 0 | b :: t => b + 2 * val t end.

(* Number of ones among the n low bits of v. *)
Fixpoint weight (n : nat) (v : Z) : Z :=
  match n with
  | O => 0
  | S n' => Z.b2z (Z.testbit v (Z.of_nat n')) + weight n' v
  end.

(* Number of positions in which two lists differ. *)
Fixpoint hdist (a b : list Z) : Z :=
  match a, b with
  | x :: a', y :: b' => (if x =? y then 0 else 1) + hdist a' b'
  | _, _ => 0
  end.

(* Product of polynomials over GF(2) coded as numbers; n bounds the degree of q. *)
Fixpoint clmul (n : nat) (q g : Z) : Z :=
  match n with
  | O => 0
  | S n' => Z.lxor (if Z.testbit q (Z.of_nat n') then Z.shiftl g (Z.of_nat n') else 0) (clmul n' q g)
  end.

(* The (23,12) Golay code: multiples of x^11 + x^10 + x^6 + x^5 + x^4 + x^2 + 1.
   The 12 data bits are the coefficients of x^22 .. x^11. *)
Definition golay_poly : Z := 2^11 + 2^10 + 2^6 + 2^5 + 2^4 + 2^2 + 1.
Definition golay_codeword (c : Z) : Prop :=
  exists q, 0 <= q < 2^12 /\ c = clmul 12 q golay_poly.
Definition golay_data (c : Z) : Z := Z.shiftr c 11.

(* The same as a list of 23 bits. *)
Definition golay_word (l : list Z) : Prop := is_bits 23 l /\ golay_codeword (val l).

(* The (15,11) Hamming code used by IMBE 7200x4400: position i carries the label below, and a word is
   a codeword when the exclusive or of the labels of its ones is zero. *)
Definition hamming_labels : list Z := [1; 2; 4; 8; 3; 5; 6; 7; 9; 10; 11; 12; 13; 14; 15].
Fixpoint label_sum (labels l : list Z) : Z :=
  match labels, l with
  | a :: labels', b :: l' => Z.lxor (if b =? 1 then a else 0) (label_sum labels' l')
  | _, _ => 0
  end.
Definition hamming_word (l : list Z) : Prop := is_bits 15 l /\ label_sum hamming_labels l = 0.

(* The (15,11) Hamming code used by IMBE 7100x4400: multiples of x^4 + x + 1. *)
Definition hamming7100_poly : Z := 2^4 + 2 + 1.
Definition hamming7100_word (l : list Z) : Prop :=
  is_bits 15 l /\ exists q, 0 <= q < 2^11 /\ val l = clmul 11 q hamming7100_poly.
